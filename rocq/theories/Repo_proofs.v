From Coq Require Import Sorted Permutation.
From Verif Require Import Py Py_proofs Trial_model Fs_model Fs_spec Fs_proofs Repo_model Repo_spec.

(** ** Names *)
Lemma prefix_spec p : forall s, String.prefix p s = true <-> exists b, s = (p ++ b)%string.
Proof.
  induction p as [|a p IH]; intros s.
  - split; [intros _; exists s; reflexivity|destruct s; reflexivity].
  - destruct s as [|b s]; [split; [discriminate|intros [b E]; discriminate]|].
    simpl. destruct (Ascii.ascii_dec a b) as [->|Ne].
    + rewrite IH. split; intros [c E]; exists c; [f_equal; exact E|injection E; auto].
    + split; [discriminate|]. intros [c E]. injection E. intros _ E'. congruence.
Qed.

Lemma str_app_nil s : (s ++ "")%string = s.
Proof. induction s as [|a s IH]; [reflexivity|simpl; rewrite IH; reflexivity]. Qed.
Lemma str_app_assoc a b c : ((a ++ b) ++ c)%string = (a ++ b ++ c)%string.
Proof. induction a as [|x a IH]; [reflexivity|simpl; rewrite IH; reflexivity]. Qed.

Lemma drop_dirname id : drop_config 0 (dirname id) = drop_config 0 id.
Proof.
  assert (P : String.prefix config_ (dirname id) = true) by (apply prefix_spec; exists id; reflexivity).
  unfold dirname in *. unfold config_ in P |- *.
  change (drop_config 0 ("config_" ++ id)%string) with
    (if String.prefix config_ ("config_" ++ id)%string then drop_config 0 id
     else String (Ascii.ascii_of_nat 99) (drop_config 0 ("onfig_" ++ id)%string)).
  unfold config_. rewrite P. reflexivity.
Qed.

Lemma contains_tail a s : contains "config_" s -> contains "config_" (String a s).
Proof. intros (x & y & ->). exists (String a x), y. reflexivity. Qed.

Lemma drop_not_contains s : ~ contains "config_" s -> drop_config 0 s = s.
Proof.
  induction s as [|a s IH]; intros H; [reflexivity|]. cbn [drop_config].
  destruct (String.prefix config_ (String a s)) eqn:E.
  - apply prefix_spec in E as [b E]. exfalso. apply H. exists EmptyString, b. exact E.
  - f_equal. apply IH. intros C. apply H, contains_tail, C.
Qed.

Lemma drop_length s : forall k, String.length (drop_config k s) <= String.length s.
Proof.
  induction s as [|a s IH]; intros k; [simpl; lia|]. cbn [drop_config].
  destruct k as [|k].
  - destruct (String.prefix config_ (String a s)); simpl; [specialize (IH 6)|specialize (IH 0)]; lia.
  - simpl. specialize (IH k). lia.
Qed.

Lemma drop_contains s : contains "config_" s -> String.length (drop_config 0 s) < String.length s.
Proof.
  induction s as [|a s IH]; intros (x & y & E).
  - destruct x; discriminate.
  - cbn [drop_config]. destruct (String.prefix config_ (String a s)) eqn:P.
    + simpl. pose proof (drop_length s 6). lia.
    + destruct x as [|b x].
      * exfalso. assert (String.prefix config_ (String a s) = true) by (apply prefix_spec; exists y; exact E).
        congruence.
      * injection E as <- E. simpl. apply -> Nat.succ_lt_mono. apply IH. exists x, y. exact E.
Qed.

Lemma drop_dirname_iff id : drop_config 0 (dirname id) = id <-> ~ contains "config_" id.
Proof.
  rewrite drop_dirname. split; [|apply drop_not_contains].
  intros E C. apply drop_contains in C. rewrite E in C. lia.
Qed.

Lemma dirname_inj a b : dirname a = dirname b -> a = b.
Proof. unfold dirname, config_. simpl. intros E. injection E. auto. Qed.

Lemma dirname_prefix id : String.prefix config_ (dirname id) = true.
Proof. apply prefix_spec. exists id. reflexivity. Qed.

(** ** Well-formed disks and caches *)
Record wfd (d : disk) (next : nat) : Prop := {
  wfd_nodup : NoDup (map fst d);
  wfd_dir : forall name x, In (name, x) d -> exists t n,
    name = dirname (t_id t) /\ holds x t n /\ plain_trial t /\
    ~ contains "config_" (t_id t) /\ n < next /\ m_time_sampled (t_meta t) <> FNaN }.

Definition okc (d : disk) (next : nat) (c : cache) : Prop :=
  forall id h, lookup id c = Some h -> exists x m,
    lookup (dirname id) d = Some x /\ th_version h = VerSha m /\ m < next /\
    t_id (th_current h) = id /\ plain_trial (th_current h) /\
    (f_version x = Full m -> holds x (th_current h) m).

Lemma lookup_in {A} k (d : list (string * A)) v : NoDup (map fst d) -> In (k, v) d -> lookup k d = Some v.
Proof.
  induction d as [|[k' v'] d IH]; intros N H; [destruct H|]. simpl in *. inversion N; subst.
  destruct H as [E|H].
  - inversion E; subst. rewrite String.eqb_refl. reflexivity.
  - destruct (String.eqb_spec k k') as [->|Ne]; [|auto].
    exfalso. apply H2. apply in_map_iff. exists (k', v). auto.
Qed.

Lemma lookup_some_in {A} k (d : list (string * A)) v : lookup k d = Some v -> In (k, v) d.
Proof.
  induction d as [|[k' v'] d IH]; simpl; [discriminate|].
  destruct (String.eqb_spec k k') as [->|Ne]; [intros E; inversion E; auto|auto].
Qed.

Lemma wfd_lookup d next id x : wfd d next -> lookup (dirname id) d = Some x ->
  exists t n, t_id t = id /\ holds x t n /\ plain_trial t /\ ~ contains "config_" id /\ n < next /\
    m_time_sampled (t_meta t) <> FNaN.
Proof.
  intros W L. apply lookup_some_in in L. destruct (wfd_dir _ _ W _ _ L) as (t & n & E & H & P & C & Hn & HN).
  apply dirname_inj in E. subst id. exists t, n. auto 10.
Qed.

Lemma set_key_lookup {A} k k' (v : A) d :
  lookup k' (set_key k v d) = if String.eqb k' k then Some v else lookup k' d.
Proof.
  induction d as [|[a b] d IH]; simpl; [reflexivity|].
  destruct (String.eqb_spec k a) as [->|Ne]; simpl.
  - destruct (String.eqb_spec k' a); reflexivity.
  - destruct (String.eqb_spec k' a) as [->|Ne'].
    + destruct (String.eqb_spec a k); [congruence|reflexivity].
    + apply IH.
Qed.

Definition has (id : string) (c : cache) : Prop := exists h, lookup id c = Some h.

Lemma has_set id k h c : has id c -> has id (set_key k h c).
Proof. intros [h' L]. unfold has. rewrite set_key_lookup. destruct (String.eqb id k); eauto. Qed.

Lemma holds_inj x t n t' n' : holds x t n -> holds x t' n' -> n = n' /\ t = t'.
Proof.
  intros [A B C D E] [A' B' C' D' E']. split; [congruence|].
  destruct t as [a b c r], t' as [a' b' c' r']; simpl in *.
  f_equal; try congruence. destruct r, r'; congruence.
Qed.

Lemma okc_set d next c id h x t n : okc d next c -> lookup (dirname id) d = Some x ->
  holds x t n -> plain_trial t -> t_id t = id -> n < next -> h = mkTH t (VerSha n) ->
  okc d next (set_key id h c).
Proof.
  intros O L H P I Hn -> id' h' L'. rewrite set_key_lookup in L'.
  destruct (String.eqb_spec id' id) as [->|Ne]; [|apply O; exact L'].
  inversion L'; subst h'. exists x, n. simpl. auto 10.
Qed.

Lemma get_by_id_ok d next c id x : wfd d next -> okc d next c -> lookup (dirname id) d = Some x ->
  exists c' h, get_by_id d c id = (c', Ok h) /\ okc d next c' /\ has id c' /\
    lookup id c' = Some h /\ (forall k, has k c -> has k c').
Proof.
  intros W O L. unfold get_by_id. destruct (lookup id c) as [h|] eqn:Lc.
  - exists c, h. split; [reflexivity|]. split; [exact O|]. split; [exists h; exact Lc|]. auto.
  - rewrite L. destruct (wfd_lookup _ _ _ _ W L) as (t & n & I & H & P & C & Hn & _).
    rewrite (holds_read _ _ _ H). eexists. eexists. split; [reflexivity|].
    split; [eapply okc_set; eauto|].
    split; [eexists; rewrite set_key_lookup, String.eqb_refl; reflexivity|].
    split; [rewrite set_key_lookup, String.eqb_refl; reflexivity|].
    intros k. apply has_set.
Qed.

Lemma synced_ok d next c id : wfd d next -> okc d next c -> has id c ->
  exists c' t, synced d c id = (c', Ok t) /\ okc d next c' /\
    (forall k, has k c -> has k c') /\
    stored d id t /\ t_id t = id /\ m_time_sampled (t_meta t) <> FNaN.
Proof.
  intros W O [h Lc]. unfold synced. rewrite Lc.
  destruct (O _ _ Lc) as (x & m & L & V & Hm & I & P & F).
  rewrite L. destruct (wfd_lookup _ _ _ _ W L) as (t & n & I' & H & P' & C & Hn & HN).
  unfold sync_trial. rewrite (ho_version _ _ _ H). simpl ver_current. cbv iota beta. rewrite V. simpl.
  destruct (Nat.eqb_spec m n) as [->|Ne].
  - destruct (holds_inj _ _ _ _ _ H (F (ho_version _ _ _ H))) as [_ Et].
    eexists. eexists. split; [reflexivity|]. destruct h as [hc hv]; simpl in *. subst hv hc.
    split; [eapply okc_set; eauto|]. split; [intros k; apply has_set|].
    split; [exists x, (VerSha n); split; [exact L|apply holds_read, H]|auto].
  - pose proof (holds_read _ _ _ H) as R. unfold load_trial in R. rewrite (ho_version _ _ _ H) in R.
    simpl in R. destruct (read_trial x) as [t0|e]; [|discriminate]. simpl in *. inversion R; subst t0.
    eexists. eexists. split; [reflexivity|].
    split; [eapply okc_set; eauto|]. split; [intros k; apply has_set|]. simpl.
    split; [exists x, (VerSha n); split; [exact L|apply holds_read, H]|auto].
Qed.

Lemma each_ok {A} (P : cache -> Prop) (R : string -> A -> Prop) f ids :
  (forall c id, In id ids -> P c -> exists c' a, f c id = (c', Ok a) /\ P c' /\ R id a) ->
  forall c, P c -> exists c' l, each f c ids = (c', Ok l) /\ P c' /\ Forall2 R ids l.
Proof.
  induction ids as [|id ids IH]; intros F c Pc.
  - exists c, []. split; [reflexivity|]. split; [exact Pc|constructor].
  - destruct (F c id (or_introl eq_refl) Pc) as (c1 & a & E1 & P1 & R1). simpl. rewrite E1.
    destruct (IH (fun c0 id0 Hi => F c0 id0 (or_intror Hi)) c1 P1) as (c2 & l & E2 & P2 & R2).
    rewrite E2. exists c2, (a :: l). split; [reflexivity|]. split; [exact P2|]. constructor; assumption.
Qed.

Lemma ids_spec d next : wfd d next -> forall id,
  In id (all_trial_ids d) <-> exists x, lookup (dirname id) d = Some x.
Proof.
  intros W id. unfold all_trial_ids. rewrite nodup_In, in_map_iff. split.
  - intros ([name x] & E & H). simpl in E. apply filter_In in H as [H _].
    destruct (wfd_dir _ _ W _ _ H) as (t & n & -> & _ & _ & C & _).
    assert (E' := proj2 (drop_dirname_iff (t_id t)) C). rewrite E' in E. subst id.
    exists x. apply lookup_in; [apply W|exact H].
  - intros [x L]. apply lookup_some_in in L. exists (dirname id, x). simpl.
    destruct (wfd_dir _ _ W _ _ L) as (t & n & E & _ & _ & C & _). apply dirname_inj in E. subst id.
    split; [apply drop_dirname_iff, C|]. apply filter_In. split; [exact L|apply dirname_prefix].
Qed.

(** Every listed trial can be fetched. *)
Lemma get_all_ok d next c : wfd d next -> okc d next c ->
  exists c' l, get_all d c = (c', Ok l) /\ okc d next c' /\
    (forall id, In id (all_trial_ids d) -> has id c').
Proof.
  intros W O. unfold get_all.
  assert (G : forall ids, incl ids (all_trial_ids d) -> forall c, okc d next c ->
    exists c' l, each (get_by_id d) c ids = (c', Ok l) /\ okc d next c' /\
      (forall k, has k c -> has k c') /\ (forall id, In id ids -> has id c')).
  { induction ids as [|id ids IH]; intros Inc c0 O0.
    - exists c0, []. split; [reflexivity|]. split; [exact O0|]. split; [auto|intros ? []].
    - destruct (proj1 (ids_spec _ _ W id) (Inc id (or_introl eq_refl))) as [x L].
      destruct (get_by_id_ok _ _ _ _ _ W O0 L) as (c1 & h & E1 & O1 & H1 & _ & M1).
      simpl. rewrite E1.
      destruct (IH (fun a Ha => Inc a (or_intror Ha)) c1 O1) as (c2 & l & E2 & O2 & M2 & A2).
      rewrite E2. exists c2, (h :: l). split; [reflexivity|]. split; [exact O2|].
      split; [auto|]. intros id' [<-|Hi]; auto. }
  destruct (G _ (incl_refl _) c O) as (c' & l & E & O' & _ & A). eauto 6.
Qed.

Lemma stored_fun d id t t' : stored d id t -> stored d id t' -> t = t'.
Proof.
  intros (x & v & L & R) (x' & v' & L' & R'). rewrite L in L'. inversion L'; subst x'.
  rewrite R in R'. inversion R'. reflexivity.
Qed.

(** Sorting *)
Definition tle (a b : string * fl) : Prop := fl_ltb (snd b) (snd a) = false.

Lemma fl_total a b : a <> FNaN -> b <> FNaN -> fl_ltb a b = false \/ fl_ltb b a = false.
Proof.
  intros A B. destruct a, b; simpl; auto; try congruence.
  destruct (Z.ltb_spec z z0), (Z.ltb_spec z0 z); auto; lia.
Qed.
Lemma fl_le_trans a b c : a <> FNaN -> b <> FNaN -> c <> FNaN ->
  fl_ltb b a = false -> fl_ltb c b = false -> fl_ltb c a = false.
Proof.
  intros A B C. destruct a, b, c; simpl; auto; try congruence.
  intros H1 H2. apply Z.ltb_ge in H1, H2. apply Z.ltb_ge. lia.
Qed.

Lemma insert_perm e l : Permutation (insert_by_time e l) (e :: l).
Proof.
  induction l as [|e' l IH]; simpl; [reflexivity|].
  destruct (fl_ltb (snd e') (snd e)); [|reflexivity].
  rewrite IH. apply perm_swap.
Qed.
Lemma sort_perm l : Permutation (sort_by_time l) l.
Proof. induction l as [|e l IH]; simpl; [reflexivity|]. rewrite insert_perm, IH. reflexivity. Qed.

Lemma insert_sorted e l : snd e <> FNaN -> Forall (fun p => snd p <> FNaN) l ->
  StronglySorted tle l -> StronglySorted tle (insert_by_time e l).
Proof.
  intros He. induction l as [|e' l IH]; intros F S; simpl.
  - constructor; constructor.
  - inversion F as [|? ? F1 F2]; subst. inversion S as [|? ? S1 S2]; subst.
    destruct (fl_ltb (snd e') (snd e)) eqn:E.
    + constructor; [auto|]. apply Forall_forall. intros p Hp.
      apply (Permutation_in _ (insert_perm e l)) in Hp. destruct Hp as [<-|Hp].
      * unfold tle. destruct (fl_total (snd e) (snd e') He F1) as [X|X]; [exact X|congruence].
      * rewrite Forall_forall in S2. auto.
    + constructor; [constructor; assumption|]. apply Forall_forall. intros p [<-|Hp]; [exact E|].
      rewrite Forall_forall in S2, F2. unfold tle. eapply fl_le_trans; [| |apply (F2 p Hp)|exact E|apply S2, Hp]; auto.
Qed.

Lemma sort_sorted l : Forall (fun p => snd p <> FNaN) l -> StronglySorted tle (sort_by_time l).
Proof.
  induction l as [|e l IH]; intros F; simpl; [constructor|]. inversion F; subst.
  apply insert_sorted; auto. rewrite sort_perm. assumption.
Qed.

(** ** Pending trials *)
Definition time_le (d : disk) (a b : string) : Prop := forall ta tb,
  stored d a ta -> stored d b tb ->
  fl_ltb (m_time_sampled (t_meta tb)) (m_time_sampled (t_meta ta)) = false.

Lemma state_pending_eq s : tstate_eqb s PENDING = true <-> s = PENDING.
Proof. destruct s; simpl; split; congruence. Qed.

Lemma NoDup_filter_map {A B} (f : A -> B) (g : A -> bool) l :
  NoDup (map f l) -> NoDup (map f (filter g l)).
Proof.
  induction l as [|a l IH]; intros N; [constructor|]. simpl in *. inversion N; subst.
  destruct (g a); simpl; auto. constructor; auto.
  intros H. apply H1. apply in_map_iff in H as (b & E & H). apply filter_In in H as [H _].
  rewrite <- E. apply in_map, H.
Qed.

Lemma sorted_map_fst d l : StronglySorted tle l ->
  Forall (fun p => exists t, stored d (fst p) t /\ m_time_sampled (t_meta t) = snd p) l ->
  StronglySorted (time_le d) (map fst l).
Proof.
  induction l as [|[id x] l IH]; intros S F; simpl; [constructor|].
  inversion S as [|? ? S1 S2]; subst. inversion F as [|? ? F1 F2]; subst.
  constructor; [auto|]. apply Forall_forall. intros id' H'. apply in_map_iff in H' as ([i y] & <- & H').
  rewrite Forall_forall in S2, F2. pose proof (S2 _ H') as T. destruct (F2 _ H') as (tb & Sb & Eb).
  destruct F1 as (ta & Sa & Ea). simpl in *. intros ta' tb' Ha Hb.
  rewrite (stored_fun _ _ _ _ Ha Sa), (stored_fun _ _ _ _ Hb Sb), Ea, Eb. exact T.
Qed.

Lemma pending_ok d next c : wfd d next -> okc d next c ->
  exists c' ids, pending d c = (c', Ok ids) /\ okc d next c' /\
    (forall id, In id (all_trial_ids d) -> has id c') /\ NoDup ids /\
    (forall id, In id ids <-> exists t, stored d id t /\ t_state t = PENDING) /\
    StronglySorted (time_le d) ids.
Proof.
  intros W O. destruct (get_all_ok _ _ _ W O) as (c1 & l1 & E1 & O1 & H1).
  unfold pending. rewrite E1.
  set (P := fun c => okc d next c /\ (forall id, In id (all_trial_ids d) -> has id c)).
  set (R := fun id (p : string * trial) => fst p = id /\ stored d id (snd p) /\
              m_time_sampled (t_meta (snd p)) <> FNaN).
  match goal with |- context [each ?F c1 ?ids] =>
    destruct (each_ok P R F ids) with (c := c1) as (c2 & l2 & E2 & [O2 H2] & F2); [|split; assumption|] end.
  { intros c0 id Hi [O0 H0]. destruct (synced_ok _ _ _ _ W O0 (H0 id Hi)) as (c3 & t & E3 & O3 & M3 & S3 & I3 & N3).
    rewrite E3. exists c3, (id, t). split; [reflexivity|]. split; [split; auto|].
    unfold R. simpl. auto. }
  rewrite E2. eexists. eexists. split; [reflexivity|]. split; [exact O2|]. split; [exact H2|].
  assert (Hfst : map fst l2 = all_trial_ids d).
  { clear - F2. induction F2 as [|id p ids l [E _] F IH]; [reflexivity|]. simpl. rewrite IH, E. reflexivity. }
  assert (HR : forall p, In p l2 -> stored d (fst p) (snd p) /\ m_time_sampled (t_meta (snd p)) <> FNaN).
  { clear - F2. induction F2 as [|id p ids l [E H] F IH]; intros q Hq; [destruct Hq|].
    destruct Hq as [<-|Hq]; [rewrite E; exact H|auto]. }
  set (fl2 := filter (fun p => tstate_eqb (t_state (snd p)) PENDING) l2).
  set (ks := map (fun p => (fst p, m_time_sampled (t_meta (snd p)))) fl2).
  assert (Pm := sort_perm ks).
  assert (Hk : map fst ks = map fst fl2) by (unfold ks; rewrite map_map; reflexivity).
  split; [|split].
  - eapply Permutation_NoDup; [apply Permutation_map, Permutation_sym, Pm|]. rewrite Hk.
    apply NoDup_filter_map. rewrite Hfst. apply NoDup_nodup.
  - intros id. rewrite (Permutation_in' eq_refl (Permutation_map fst Pm)).
    rewrite Hk. rewrite in_map_iff. split.
    + intros ([i t] & <- & H). apply filter_In in H as [H S]. apply state_pending_eq in S.
      exists t. split; [apply (HR _ H)|exact S].
    + intros (t & S & Sp). assert (Hi : In id (all_trial_ids d)).
      { apply (ids_spec _ _ W). destruct S as (x & v & L & _). eauto. }
      rewrite <- Hfst in Hi. apply in_map_iff in Hi as ([i t'] & <- & Hi). exists (i, t').
      split; [reflexivity|]. apply filter_In. split; [exact Hi|].
      simpl in *. pose proof (stored_fun _ _ _ _ (proj1 (HR _ Hi)) S) as Et. simpl in Et.
      rewrite Et. apply state_pending_eq, Sp.
  - apply sorted_map_fst.
    + apply sort_sorted. apply Forall_forall. intros q Hq. unfold ks in Hq.
      apply in_map_iff in Hq as (p & <- & Hp). apply filter_In in Hp as [Hp _]. simpl. apply (HR _ Hp).
    + apply Forall_forall. intros q Hq. apply (Permutation_in _ Pm) in Hq. unfold ks in Hq.
      apply in_map_iff in Hq as (p & <- & Hp). apply filter_In in Hp as [Hp _]. simpl.
      exists (snd p). split; [apply (HR _ Hp)|reflexivity].
Qed.

Lemma next_pending_ok d next c : wfd d next -> okc d next c ->
  exists c' o, get_next_pending d c = (c', Ok o) /\ okc d next c' /\
    match o with
    | Some t => stored d (t_id t) t /\ t_state t = PENDING /\
        forall id t', stored d id t' -> t_state t' = PENDING ->
          fl_ltb (m_time_sampled (t_meta t')) (m_time_sampled (t_meta t)) = false
    | None => forall id t', stored d id t' -> t_state t' <> PENDING
    end.
Proof.
  intros W O. destruct (pending_ok _ _ _ W O) as (c1 & ids & E & O1 & H1 & ND & Sp & So).
  unfold get_next_pending. rewrite E. destruct ids as [|id ids].
  - exists c1, None. split; [reflexivity|]. split; [exact O1|]. intros id t' S Pe.
    apply (Sp id). eauto.
  - assert (Hin := proj1 (Sp id) (or_introl eq_refl)). destruct Hin as (t0 & S0 & P0).
    assert (Hid : In id (all_trial_ids d)).
    { apply (ids_spec _ _ W). destruct S0 as (x & v & L & _). eauto. }
    destruct (synced_ok _ _ _ _ W O1 (H1 id Hid)) as (c2 & t & E2 & O2 & _ & S2 & I2 & N2).
    rewrite E2. exists c2, (Some t). split; [reflexivity|]. split; [exact O2|].
    pose proof (stored_fun _ _ _ _ S2 S0) as ->. rewrite I2. split; [exact S2|]. split; [exact P0|].
    intros id' t' S' P'. destruct (proj2 (Sp id') (ex_intro _ t' (conj S' P'))) as [<-|Hi].
    + rewrite (stored_fun _ _ _ _ S' S2). destruct (m_time_sampled (t_meta t0)); simpl; auto. apply Z.ltb_irrefl.
    + inversion So as [|? ? _ F]; subst. rewrite Forall_forall in F. apply (F id' Hi); assumption.
Qed.

Lemma all_trials_ok d next c : wfd d next -> okc d next c ->
  exists c' l, get_all_trials d c = (c', Ok l) /\ okc d next c' /\
    NoDup (map t_id l) /\ (forall t, In t l <-> stored d (t_id t) t).
Proof.
  intros W O. destruct (get_all_ok _ _ _ W O) as (c1 & l1 & E1 & O1 & H1).
  unfold get_all_trials. rewrite E1.
  set (P := fun c => okc d next c /\ (forall id, In id (all_trial_ids d) -> has id c)).
  set (R := fun id (t : trial) => t_id t = id /\ stored d id t).
  destruct (each_ok P R (synced d) (all_trial_ids d)) with (c := c1) as (c2 & l2 & E2 & [O2 H2] & F2);
    [|split; assumption|].
  { intros c0 id Hi [O0 H0]. destruct (synced_ok _ _ _ _ W O0 (H0 id Hi)) as (c3 & t & E3 & O3 & M3 & S3 & I3 & N3).
    rewrite E3. exists c3, t. split; [reflexivity|]. split; [split; auto|]. split; assumption. }
  rewrite E2. exists c2, l2. split; [reflexivity|]. split; [exact O2|].
  assert (Hm : map t_id l2 = all_trial_ids d).
  { clear - F2. induction F2 as [|id p ids l [E _] F IH]; [reflexivity|]. simpl. rewrite IH, E. reflexivity. }
  assert (HR : forall t, In t l2 -> stored d (t_id t) t).
  { clear - F2. induction F2 as [|id p ids l [E H] F IH]; intros q Hq; [destruct Hq|].
    destruct Hq as [<-|Hq]; [rewrite E; exact H|auto]. }
  split; [rewrite Hm; apply NoDup_nodup|]. intros t. split; [apply HR|].
  intros S. assert (Hi : In (t_id t) (all_trial_ids d)).
  { apply (ids_spec _ _ W). destruct S as (x & v & L & _). eauto. }
  rewrite <- Hm in Hi. apply in_map_iff in Hi as (t' & E & Hi). pose proof (HR _ Hi) as S'.
  rewrite E in S'. rewrite <- (stored_fun _ _ _ _ S' S). exact Hi.
Qed.

(** ** All schedules *)
Section Root.
Variable root : string.

Record rinv (s : rstate) : Prop := {
  ri_disk : wfd (r_disk s) (r_next s);
  ri_cache : forall w, okc (r_disk s) (r_next s) (r_cache s w) }.

Lemma wfd_mono d n m : n <= m -> wfd d n -> wfd d m.
Proof.
  intros L [N D]. split; [exact N|]. intros name x H.
  destruct (D _ _ H) as (t & k & E1 & E2 & E3 & E4 & E5 & E6). exists t, k.
  repeat (split; [assumption|]). split; [lia|assumption].
Qed.
Lemma okc_mono d n m c : n <= m -> okc d n c -> okc d m c.
Proof.
  intros L O id h H. destruct (O _ _ H) as (x & k & E1 & E2 & E3 & E4 & E5 & E6).
  exists x, k. repeat (split; [assumption|]). split; [lia|auto].
Qed.

Lemma located_id t : t_id (located root t) = t_id t.
Proof. reflexivity. Qed.
Lemma located_plain t : plain_trial t -> plain_trial (located root t).
Proof. intros H. exact H. Qed.

Lemma new_holds t n : plain_trial t -> t_report t = None ->
  snd (new_code empty_dir t n) = None /\ holds (complete empty_dir (new_code empty_dir t n)) t n.
Proof.
  intros P R. unfold new_code. simpl ver_current. cbv iota. rewrite (write_plain t P).
  unfold seq, bump_ops. simpl snd. simpl fst. split; [reflexivity|].
  unfold complete, wops. destruct t as [c m s r]; simpl in *. subst r.
  destruct (m_previous_trial_id m); constructor; reflexivity.
Qed.

Lemma lookup_app_none {A} k (d : list (string * A)) k' v : lookup k d = None ->
  lookup k (d ++ [(k', v)]) = if String.eqb k k' then Some v else None.
Proof.
  induction d as [|[a b] d IH]; simpl; [reflexivity|].
  destruct (String.eqb k a); [discriminate|auto].
Qed.
Lemma lookup_app_some {A} k (d e : list (string * A)) v : lookup k d = Some v ->
  lookup k (d ++ e) = Some v.
Proof.
  induction d as [|[a b] d IH]; simpl; [discriminate|].
  destruct (String.eqb k a); auto.
Qed.
Lemma lookup_none_notin {A} k (d : list (string * A)) : lookup k d = None -> ~ In k (map fst d).
Proof.
  induction d as [|[a b] d IH]; simpl; [auto|].
  destruct (String.eqb_spec k a) as [->|Ne]; [discriminate|]. intros H [E|E]; [congruence|auto].
  apply IH; assumption.
Qed.
Lemma NoDup_snoc {A} (l : list A) a : NoDup l -> ~ In a l -> NoDup (l ++ [a]).
Proof.
  intros N H. apply NoDup_rev in N. rewrite <- (rev_involutive (l ++ [a])).
  apply NoDup_rev. rewrite rev_app_distr. simpl. constructor; [|exact N].
  intros I. apply H, in_rev, I.
Qed.

Lemma wfd_add d next t x n : wfd d next -> lookup (dirname (t_id t)) d = None ->
  holds x t n -> plain_trial t -> ~ contains "config_" (t_id t) -> n < S next ->
  m_time_sampled (t_meta t) <> FNaN -> wfd (d ++ [(dirname (t_id t), x)]) (S next).
Proof.
  intros W L H P C Hn N. split.
  - rewrite map_app. apply NoDup_snoc; [apply W|]. apply lookup_none_notin, L.
  - intros name y Hi. apply in_app_iff in Hi as [Hi|[E|[]]].
    + destruct (wfd_dir _ _ (wfd_mono d next (S next) (le_S _ _ (le_n _)) W) _ _ Hi) as (t' & k & Q). eauto.
    + inversion E; subst. exists t, n. auto 10.
Qed.

Lemma okc_add d next name x c : okc d next c -> lookup name d = None ->
  okc (d ++ [(name, x)]) next c.
Proof.
  intros O L id h H. destruct (O _ _ H) as (y & k & E1 & Q). exists y, k.
  split; [apply lookup_app_some, E1|exact Q].
Qed.

Lemma put_new_inv s w t : rinv s -> proper_new t -> rinv (rstep root s (RPutNew w t)).
Proof.
  intros [W O] (P & C & R & N). simpl. unfold put_new.
  destruct (lookup (dirname (t_id t)) (r_disk s)) as [x|] eqn:L.
  - split; simpl; [apply (wfd_mono _ (r_next s)); auto|].
    intros w'. unfold upd. destruct (Nat.eqb w' w); apply (okc_mono _ (r_next s)); auto.
  - destruct (new_holds (located root t) (r_next s) (located_plain t P) R) as [E H]. rewrite E.
    assert (W' := wfd_add _ _ (located root t) _ _ W L H (located_plain t P) C (Nat.lt_succ_diag_r _) N).
    split; simpl; [exact W'|]. intros w'.
    assert (O' : forall w'', okc (r_disk s ++ [(dirname (t_id t), complete empty_dir (new_code empty_dir (located root t) (r_next s)))])
       (S (r_next s)) (r_cache s w'')).
    { intros w''. apply okc_add; [apply (okc_mono _ (r_next s)); auto|exact L]. }
    unfold upd. destruct (Nat.eqb w' w); [|apply O'].
    eapply okc_set; [apply O'| |exact H|exact P|reflexivity|lia|reflexivity].
    rewrite lookup_app_none by exact L. rewrite String.eqb_refl. reflexivity.
Qed.

Lemma put_mismatch x h t n m k : f_version x = Full n -> th_version h = VerSha m -> m <> n ->
  put_code x h t k = ([], Some VersionMismatchError).
Proof.
  intros E1 E2 Ne. unfold put_code. rewrite E1. simpl. rewrite E2. simpl.
  destruct (Nat.eqb_spec m n); [congruence|reflexivity].
Qed.

Lemma in_set_key {A} k (v : A) d name y : In (name, y) (set_key k v d) ->
  NoDup (map fst d) -> (name = k /\ y = v) \/ (name <> k /\ In (name, y) d).
Proof.
  induction d as [|[a b] d IH]; simpl; intros H N.
  - destruct H as [E|[]]. inversion E; auto.
  - inversion N; subst. destruct (String.eqb_spec k a) as [->|Ne].
    + destruct H as [E|H]; [inversion E; auto|]. right. split; [|auto].
      intros ->. apply H2. apply in_map_iff. exists (a, y). auto.
    + destruct H as [E|H]; [inversion E; subst; auto|].
      destruct (IH H H3) as [X|[X Y]]; auto.
Qed.
Lemma map_fst_set_key {A} k (v : A) d y : lookup k d = Some y -> map fst (set_key k v d) = map fst d.
Proof.
  induction d as [|[a b] d IH]; simpl; [discriminate|].
  destruct (String.eqb_spec k a) as [->|Ne]; simpl; [reflexivity|]. intros L. rewrite IH by exact L. reflexivity.
Qed.

Lemma set_key_same {A} k (v : A) d : lookup k d = Some v -> set_key k v d = d.
Proof.
  induction d as [|[a b] d IH]; simpl; [discriminate|].
  destruct (String.eqb_spec k a) as [->|Ne]; [intros E; inversion E; reflexivity|].
  intros L. rewrite IH by exact L. reflexivity.
Qed.

Lemma update_inv s w id f : rinv s -> proper_update f -> rinv (rstep root s (RUpdate w id f)).
Proof.
  intros [W O] Pf. simpl. unfold put_updated.
  destruct (lookup (dirname id) (r_disk s)) as [x|] eqn:L.
  2:{ unfold get_by_id. destruct (lookup id (r_cache s w)) as [h|] eqn:Lc.
      - destruct (O w _ _ Lc) as (y & k & E & _). congruence.
      - rewrite L. split; simpl; [apply (wfd_mono _ (r_next s)); auto|].
        intros w'. unfold upd. destruct (Nat.eqb w' w); apply (okc_mono _ (r_next s)); auto. }
  destruct (get_by_id_ok _ _ _ _ _ W (O w) L) as (c1 & h & E & O1 & _ & Lh & _). rewrite E.
  destruct (O1 _ _ Lh) as (x' & m & L' & V & Hm & I & P & F). rewrite L in L'. inversion L'; subst x'.
  destruct (wfd_lookup _ _ _ _ W L) as (t & n & I' & H & P' & C & Hn & HN).
  destruct (Pf (th_current h)) as (Pf1 & Pf2 & Pf3 & Pf4).
  destruct (Nat.eq_dec m n) as [->|Ne].
  - destruct (holds_inj _ _ _ _ _ H (F (ho_version _ _ _ H))) as [_ Et]. subst t.
    destruct (put_read_lemma x (f (th_current h)) (th_current h) h n (Pf1 P) P H V Pf4 (r_next s)) as [E1 H1].
    rewrite E1. split; simpl.
    + split.
      * erewrite map_fst_set_key by exact L. apply W.
      * intros name y Hy. apply in_set_key in Hy; [|apply W]. destruct Hy as [[-> ->]|[Nn Hy]].
        -- exists (f (th_current h)), (r_next s). rewrite Pf2, I. split; [reflexivity|]. split; [exact H1|].
           split; [auto|]. split; [exact C|]. split; [lia|]. rewrite Pf3. exact HN.
        -- destruct (wfd_dir _ _ W _ _ Hy) as (t2 & n2 & Q1 & Q2 & Q3 & Q4 & Q5 & Q6). exists t2, n2.
           repeat (split; [assumption|]). split; [lia|assumption].
    + assert (O' : forall c, okc (r_disk s) (r_next s) c ->
        okc (set_key (dirname id) (complete x (put_code x h (f (th_current h)) (r_next s))) (r_disk s)) (S (r_next s)) c).
      { intros c Oc i g Lg. destruct (Oc _ _ Lg) as (y & k & Q1 & Q2 & Q3 & Q4 & Q5 & Q6).
        rewrite set_key_lookup. destruct (String.eqb_spec (dirname i) (dirname id)) as [Ei|Ni].
        - eexists. exists k. split; [reflexivity|].
          split; [exact Q2|]. split; [lia|]. split; [exact Q4|]. split; [exact Q5|].
          intros Ev. rewrite (ho_version _ _ _ H1) in Ev. inversion Ev. lia.
        - exists y, k. repeat (split; [assumption|]). split; [lia|auto]. }
      intros w'. unfold upd. destruct (Nat.eqb w' w); [|apply O', O].
      eapply okc_set; [apply O', O1| |exact H1|auto|rewrite Pf2; exact I|lia|reflexivity].
      rewrite set_key_lookup, String.eqb_refl. reflexivity.
  - rewrite (put_mismatch x h _ n m _ (ho_version _ _ _ H) V Ne). simpl.
    unfold complete. simpl. rewrite set_key_same by exact L.
    split; simpl; [apply (wfd_mono _ (r_next s)); auto|].
    intros w'. unfold upd. destruct (Nat.eqb w' w); [|apply (okc_mono _ (r_next s)); auto].
    intros i g Lg. rewrite set_key_lookup in Lg. destruct (String.eqb_spec i id) as [->|Ni].
    + inversion Lg; subst g. exists x, m. simpl. split; [exact L|]. split; [exact V|]. split; [lia|].
      split; [rewrite Pf2; exact I|]. split; [auto|]. intros Ev. rewrite (ho_version _ _ _ H) in Ev. inversion Ev. congruence.
    + destruct (O1 _ _ Lg) as (y & k & Q1 & Q2 & Q3 & Q). exists y, k. split; [exact Q1|]. split; [exact Q2|]. split; [lia|exact Q].
Qed.

Lemma killed_holds t n k : plain_trial t -> t_report t = None -> 8 <= k ->
  holds (crash_after empty_dir (new_code empty_dir t n) k) t n.
Proof.
  intros P R K. unfold new_code, crash_after. simpl ver_current. cbv iota. rewrite (write_plain t P).
  unfold seq, bump_ops. cbn [snd fst]. destruct t as [c m s r]; simpl in *. subst r.
  do 8 (destruct k as [|k]; [lia|]). simpl.
  destruct (m_previous_trial_id m); simpl;
    destruct k as [|[|k]]; simpl; rewrite ?firstn_nil; constructor; reflexivity.
Qed.

Lemma killed_inv s w t k : rinv s -> proper_new t -> harmless k -> rinv (rstep root s (RKilledNew w t k)).
Proof.
  intros [W O] (P & C & R & N) K. simpl. unfold put_new_killed.
  assert (OK0 : forall d c n, okc d n (if true then [] else c)) by (intros ? ? ? ? ? X; discriminate X).
  destruct (lookup (dirname (t_id t)) (r_disk s)) as [x|] eqn:L; [|destruct k as [k|]].
  - split; simpl; [apply (wfd_mono _ (r_next s)); auto|].
    intros w'. unfold upd. destruct (Nat.eqb w' w); [intros ? ? X; discriminate X|]; apply (okc_mono _ (r_next s)); auto.
  - assert (H := killed_holds (located root t) (r_next s) k (located_plain t P) R K).
    assert (W' := wfd_add _ _ (located root t) _ _ W L H (located_plain t P) C (Nat.lt_succ_diag_r _) N).
    split; simpl; [exact W'|]. intros w'. unfold upd. destruct (Nat.eqb w' w); [intros ? ? X; discriminate X|].
    apply okc_add; [apply (okc_mono _ (r_next s)); auto|exact L].
  - split; simpl; [apply (wfd_mono _ (r_next s)); auto|].
    intros w'. unfold upd. destruct (Nat.eqb w' w); [intros ? ? X; discriminate X|]; apply (okc_mono _ (r_next s)); auto.
Qed.

Lemma rstep_inv s o : rinv s -> proper_op o -> rinv (rstep root s o).
Proof.
  intros I P. destruct o as [w t|w id f|w|w|w|w t k].
  - apply put_new_inv; assumption.
  - apply update_inv; assumption.
  - simpl. destruct I as [W O]. destruct (next_pending_ok _ _ _ W (O w)) as (c & o & E & O1 & _). rewrite E.
    split; simpl; [exact W|]. intros w'. unfold upd. destruct (Nat.eqb w' w); auto.
  - simpl. destruct I as [W O]. destruct (all_trials_ok _ _ _ W (O w)) as (c & o & E & O1 & _). rewrite E.
    split; simpl; [exact W|]. intros w'. unfold upd. destruct (Nat.eqb w' w); auto.
  - destruct I as [W O]. split; simpl; [exact W|]. intros w'. unfold upd. destruct (Nat.eqb w' w); [|auto].
    intros ? ? X. discriminate X.
  - destruct P as [P K]. apply killed_inv; assumption.
Qed.

Lemma rinit_inv : rinv r_init.
Proof.
  split; [split; [constructor|intros ? ? []]|]. intros w id h X. discriminate X.
Qed.

Lemma rrun_inv os : forall s, rinv s -> Forall proper_op os -> rinv (rrun root s os).
Proof.
  induction os as [|o os IH]; intros s I F; [exact I|]. inversion F; subst.
  change (rrun root s (o :: os)) with (rrun root (rstep root s o) os). apply IH; [apply rstep_inv|]; assumption.
Qed.

(** C20 *)
Definition known (s : rstate) (id : string) : Prop := exists x, lookup (dirname id) (r_disk s) = Some x.

Lemma known_set id (d : disk) id' (x y : tdir) : lookup (dirname id') d = Some y ->
  ((exists z, lookup (dirname id) (set_key (dirname id') x d) = Some z) <->
   exists z, lookup (dirname id) d = Some z).
Proof.
  intros L. rewrite set_key_lookup. destruct (String.eqb_spec (dirname id) (dirname id')) as [E|Ne].
  - rewrite E, L. split; eauto.
  - reflexivity.
Qed.

Lemma known_add (d : disk) id name x :
  lookup name d = None -> ((exists z, lookup (dirname id) (d ++ [(name, x)]) = Some z) <->
     (exists z, lookup (dirname id) d = Some z) \/ dirname id = name).
Proof.
  intros L. destruct (lookup (dirname id) d) as [y|] eqn:E.
  - rewrite (lookup_app_some _ _ _ _ E). split; [eauto|]. eauto.
  - rewrite lookup_app_none by exact E. destruct (String.eqb_spec (dirname id) name).
    + split; eauto.
    + split; [intros [z X]; discriminate|]. intros [[z X]|X]; [discriminate|congruence].
Qed.

Lemma known_step s o id : known (rstep root s o) id <-> known s id \/ In id (put_ids [o]).
Proof.
  unfold known. destruct o as [w t|w i f|w|w|w|w t k]; cbn [rstep put_ids In].
  - unfold put_new. destruct (lookup (dirname (t_id t)) (r_disk s)) as [x|] eqn:L.
    + simpl. split; [auto|]. intros [H|[<-|[]]]; eauto.
    + destruct (snd (new_code empty_dir (located root t) (r_next s))); cbn [r_disk];
        rewrite (known_add _ id _ _ L); (split; [intros [H|H]; [auto|apply dirname_inj in H; auto]|intros [H|[->|[]]]; auto]).
  - unfold put_updated. destruct (get_by_id (r_disk s) (r_cache s w) i) as [c1 [h|e]]; simpl; [|tauto].
    destruct (lookup (dirname i) (r_disk s)) as [x|] eqn:L; simpl; [|tauto].
    destruct (snd (put_code x h (f (th_current h)) (r_next s))); simpl; rewrite (known_set _ _ _ _ _ L); tauto.
  - tauto.
  - tauto.
  - tauto.
  - unfold put_new_killed. destruct (lookup (dirname (t_id t)) (r_disk s)) as [x|] eqn:L; simpl; [|destruct k as [k|]]; simpl.
    + destruct k; simpl; split; try tauto. intros [H|[<-|[]]]; eauto.
    + rewrite known_add by exact L. split; [intros [H|H]; [auto|apply dirname_inj in H; auto]|intros [H|[->|[]]]; auto].
    + tauto.
Qed.

Lemma known_run os : forall s id, known (rrun root s os) id <-> known s id \/ In id (put_ids os).
Proof.
  induction os as [|o os IH]; intros s id.
  - simpl. tauto.
  - change (rrun root s (o :: os)) with (rrun root (rstep root s o) os). rewrite IH, known_step.
    destruct o as [w t|w i f|w|w|w|w t [k|]]; simpl; tauto.
Qed.

Lemma listed_ids_lemma os : Forall proper_op os ->
  let s := rrun root r_init os in
  (forall id, In id (all_trial_ids (r_disk s)) <-> In id (put_ids os)) /\
  (forall w id, In id (put_ids os) -> exists c h, get_by_id (r_disk s) (r_cache s w) id = (c, Ok h)).
Proof.
  intros F s. assert (I : rinv s) by (apply rrun_inv; [apply rinit_inv|exact F]).
  assert (K : forall id, known s id <-> In id (put_ids os)).
  { intros id. unfold s. rewrite known_run. unfold known at 1. simpl. split; [intros [[x X]|X]; [discriminate|exact X]|auto]. }
  split.
  - intros id. rewrite (ids_spec _ _ (ri_disk _ I)). apply K.
  - intros w id H. apply K in H as [x L].
    destruct (get_by_id_ok _ _ _ _ _ (ri_disk _ I) (ri_cache _ I w) L) as (c & h & E & _). eauto.
Qed.

(** C22 *)
Lemma next_pending_lemma os w : Forall proper_op os ->
  let s := rrun root r_init os in
  exists o, next_pending_of s w = Ok o /\
    match o with
    | Some t => stored (r_disk s) (t_id t) t /\ t_state t = PENDING /\
        forall id t', stored (r_disk s) id t' -> t_state t' = PENDING ->
          fl_ltb (m_time_sampled (t_meta t')) (m_time_sampled (t_meta t)) = false
    | None => forall id t', stored (r_disk s) id t' -> t_state t' <> PENDING
    end.
Proof.
  intros F s. assert (I : rinv s) by (apply rrun_inv; [apply rinit_inv|exact F]).
  destruct (next_pending_ok _ _ _ (ri_disk _ I) (ri_cache _ I w)) as (c & o & E & _ & H).
  exists o. unfold next_pending_of. rewrite E. auto.
Qed.

Lemma pending_lemma os w : Forall proper_op os ->
  let s := rrun root r_init os in
  exists ids, pending_of s w = Ok ids /\ NoDup ids /\
    (forall id, In id ids <-> exists t, stored (r_disk s) id t /\ t_state t = PENDING) /\
    StronglySorted (fun a b => forall ta tb, stored (r_disk s) a ta -> stored (r_disk s) b tb ->
       fl_ltb (m_time_sampled (t_meta tb)) (m_time_sampled (t_meta ta)) = false) ids.
Proof.
  intros F s. assert (I : rinv s) by (apply rrun_inv; [apply rinit_inv|exact F]).
  destruct (pending_ok _ _ _ (ri_disk _ I) (ri_cache _ I w)) as (c & ids & E & _ & _ & N & H & S).
  exists ids. unfold pending_of. rewrite E. auto.
Qed.

Lemma all_lemma os w : Forall proper_op os ->
  let s := rrun root r_init os in
  exists l, all_of s w = Ok l /\ NoDup (map t_id l) /\
    (forall t, In t l <-> stored (r_disk s) (t_id t) t).
Proof.
  intros F s. assert (I : rinv s) by (apply rrun_inv; [apply rinit_inv|exact F]).
  destruct (all_trials_ok _ _ _ (ri_disk _ I) (ri_cache _ I w)) as (c & l & E & _ & N & H).
  exists l. unfold all_of. rewrite E. auto.
Qed.

(** C21 *)
Lemma put_new_exists_lemma (d : disk) c t n x : lookup (dirname (t_id t)) d = Some x ->
  put_new root d c t n = (d, c, Err TrialAlreadyExistsError).
Proof. intros L. unfold put_new. rewrite L. reflexivity. Qed.

Lemma put_new_fresh_lemma (d : disk) c t n : lookup (dirname (t_id t)) d = None ->
  plain_trial t -> t_report t = None ->
  exists d' c' h, put_new root d c t n = (d', c', Ok h) /\ th_current h = located root t /\
    stored d' (t_id t) (located root t) /\
    (forall id, id <> t_id t -> lookup (dirname id) d' = lookup (dirname id) d).
Proof.
  intros L P R. unfold put_new. rewrite L.
  destruct (new_holds (located root t) n (located_plain t P) R) as [E H]. rewrite E.
  eexists. eexists. eexists. split; [reflexivity|]. split; [reflexivity|]. split.
  - eexists. exists (VerSha n). split; [|apply holds_read, H]. fold (dirname (t_id t)).
    rewrite lookup_app_none by exact L. rewrite String.eqb_refl. reflexivity.
  - intros id Ne. destruct (lookup (dirname id) d) as [y|] eqn:E2.
    + apply lookup_app_some, E2.
    + rewrite lookup_app_none by exact E2. destruct (String.eqb_spec (dirname id) (dirname (t_id t))) as [X|X]; [|reflexivity].
      apply dirname_inj in X. congruence.
Qed.

(** ** A directory that cannot be read blocks everybody, for ever. *)
Record blocked (id : string) (x : tdir) (s : rstate) : Prop := {
  bl_disk : lookup (dirname id) (r_disk s) = Some x;
  bl_cache : forall w, lookup id (r_cache s w) = None }.

Lemma each_none {A} (f : cache -> string -> cache * res A) id ids :
  (forall c i, lookup id c = None -> lookup id (fst (f c i)) = None) ->
  forall c, lookup id c = None -> lookup id (fst (each f c ids)) = None.
Proof.
  intros H. induction ids as [|i ids IH]; intros c L; [exact L|]. simpl.
  pose proof (H c i L) as H1. destruct (f c i) as [c1 [a|e]]; simpl in *; [|exact H1].
  pose proof (IH c1 H1) as H2. destruct (each f c1 ids) as [c2 [l|e]]; exact H2.
Qed.

Lemma each_err {A} (f : cache -> string -> cache * res A) id ids :
  (forall c i, lookup id c = None -> lookup id (fst (f c i)) = None) ->
  (forall c, lookup id c = None -> exists e, snd (f c id) = Err e) -> In id ids ->
  forall c, lookup id c = None -> exists e, snd (each f c ids) = Err e.
Proof.
  intros H He. induction ids as [|i ids IH]; intros Hi c L; [destruct Hi|]. simpl.
  destruct Hi as [->|Hi].
  - destruct (He c L) as [e E]. destruct (f c id) as [c1 [a|e1]]; simpl in *; [discriminate|eauto].
  - pose proof (H c i L) as H1. destruct (f c i) as [c1 [a|e1]]; simpl in *; [|eauto].
    destruct (IH Hi c1 H1) as [e E]. destruct (each f c1 ids) as [c2 [l|e2]]; simpl in *; [discriminate|eauto].
Qed.

Lemma get_none (d : disk) id x e : lookup (dirname id) d = Some x -> load_trial x = Err e ->
  forall c i, lookup id c = None -> lookup id (fst (get_by_id d c i)) = None.
Proof.
  intros L E c i Lc. unfold get_by_id. destruct (lookup i c) as [h|] eqn:Li; [exact Lc|].
  destruct (lookup (dirname i) d) as [y|] eqn:Ly; [|exact Lc].
  destruct (load_trial y) as [h|e'] eqn:Ey; [|exact Lc]. simpl. rewrite set_key_lookup.
  destruct (String.eqb_spec id i) as [<-|Ne]; [|exact Lc]. congruence.
Qed.

Lemma synced_none (d : disk) id : forall c i, lookup id c = None -> lookup id (fst (synced d c i)) = None.
Proof.
  intros c i Lc. unfold synced. destruct (lookup i c) as [h|] eqn:Li; [|exact Lc].
  destruct (lookup (dirname i) d) as [y|]; [|exact Lc].
  destruct (sync_trial y h) as [h'|e']; [|exact Lc]. simpl. rewrite set_key_lookup.
  destruct (String.eqb_spec id i) as [<-|Ne]; [congruence|exact Lc].
Qed.

Lemma blocked_listed (d : disk) id x : ~ contains "config_" id -> lookup (dirname id) d = Some x -> In id (all_trial_ids d).
Proof.
  intros C L. unfold all_trial_ids. rewrite nodup_In, in_map_iff. exists (dirname id, x). simpl.
  split; [apply drop_dirname_iff, C|]. apply filter_In. split; [apply lookup_some_in, L|apply dirname_prefix].
Qed.

Lemma blocked_get_all (d : disk) id x e c : ~ contains "config_" id -> lookup (dirname id) d = Some x ->
  load_trial x = Err e -> lookup id c = None ->
  lookup id (fst (get_all d c)) = None /\ exists e, snd (get_all d c) = Err e.
Proof.
  intros C L E Lc. unfold get_all. split.
  - apply each_none; [|exact Lc]. intros; eapply get_none; eauto.
  - apply (each_err _ id); [intros; eapply get_none; eauto| |eapply blocked_listed; eauto|exact Lc].
    intros c0 Lc0. unfold get_by_id. rewrite Lc0, L, E. eexists. reflexivity.
Qed.

Lemma blocked_next (d : disk) id x e c : ~ contains "config_" id -> lookup (dirname id) d = Some x ->
  load_trial x = Err e -> lookup id c = None ->
  (lookup id (fst (get_next_pending d c)) = None /\ exists e, snd (get_next_pending d c) = Err e) /\
  (lookup id (fst (get_all_trials d c)) = None /\ exists e, snd (get_all_trials d c) = Err e).
Proof.
  intros C L E Lc. destruct (blocked_get_all _ _ _ _ _ C L E Lc) as [N [e' E']].
  unfold get_next_pending, pending, get_all_trials. destruct (get_all d c) as [c1 r]. simpl in *. subst r.
  simpl. eauto 6.
Qed.

Lemma blocked_step id x e s o : ~ contains "config_" id -> load_trial x = Err e ->
  blocked id x s -> blocked id x (rstep root s o).
Proof.
  intros C E [L Nc]. destruct o as [w t|w i f|w|w|w|w t k]; cbn [rstep].
  - unfold put_new. destruct (lookup (dirname (t_id t)) (r_disk s)) as [y|] eqn:Ly.
    + split; simpl; [exact L|]. intros w'. unfold upd. destruct (Nat.eqb w' w); auto.
    + assert (Nid : id <> t_id t) by (intros ->; congruence).
      destruct (snd (new_code empty_dir (located root t) (r_next s))); simpl;
        (split; simpl; [apply lookup_app_some, L|]); intros w'; unfold upd; destruct (Nat.eqb w' w); auto.
      rewrite set_key_lookup. destruct (String.eqb_spec id (t_id t)); [congruence|auto].
  - unfold put_updated. pose proof (get_none _ _ _ _ L E (r_cache s w) i (Nc w)) as G.
    destruct (get_by_id (r_disk s) (r_cache s w) i) as [c1 [h|e1]] eqn:Eg; simpl in *.
    + assert (Ne : id <> i).
      { intros <-. unfold get_by_id in Eg. rewrite (Nc w), L, E in Eg. discriminate. }
      assert (Ld : dirname id <> dirname i) by (intros X; apply dirname_inj in X; congruence).
      destruct (lookup (dirname i) (r_disk s)) as [y|] eqn:Ly; simpl.
      * destruct (snd (put_code y h (f (th_current h)) (r_next s))); simpl;
          (split; simpl; [rewrite set_key_lookup; destruct (String.eqb_spec (dirname id) (dirname i)); [congruence|exact L]|]);
          intros w'; unfold upd; destruct (Nat.eqb w' w); auto; rewrite set_key_lookup;
          destruct (String.eqb_spec id i); [congruence|exact G|congruence|exact G].
      * split; simpl; [exact L|]. intros w'. unfold upd. destruct (Nat.eqb w' w); auto.
        rewrite set_key_lookup. destruct (String.eqb_spec id i); [congruence|exact G].
    + split; simpl; [exact L|]. intros w'. unfold upd. destruct (Nat.eqb w' w); auto.
  - split; simpl; [exact L|]. intros w'. unfold upd. destruct (Nat.eqb w' w); auto.
    apply (blocked_next _ _ _ _ _ C L E (Nc w)).
  - split; simpl; [exact L|]. intros w'. unfold upd. destruct (Nat.eqb w' w); auto.
    apply (blocked_next _ _ _ _ _ C L E (Nc w)).
  - split; simpl; [exact L|]. intros w'. unfold upd. destruct (Nat.eqb w' w); auto.
  - split; simpl.
    + unfold put_new_killed. destruct (lookup (dirname (t_id t)) (r_disk s)); [exact L|].
      destruct k; [apply lookup_app_some, L|exact L].
    + intros w'. unfold upd. destruct (Nat.eqb w' w); auto.
Qed.

Lemma blocked_run id x e os : ~ contains "config_" id -> load_trial x = Err e ->
  forall s, blocked id x s -> blocked id x (rrun root s os).
Proof.
  intros C E. induction os as [|o os IH]; intros s B; [exact B|].
  change (rrun root s (o :: os)) with (rrun root (rstep root s o) os). apply IH. eapply blocked_step; eauto.
Qed.

Lemma killed_unreadable t n k : plain_trial t -> t_report t = None -> k < 8 ->
  exists e, load_trial (crash_after empty_dir (new_code empty_dir t n) k) = Err e.
Proof.
  intros P R K. unfold new_code, crash_after. simpl ver_current. cbv iota. rewrite (write_plain t P).
  unfold seq, bump_ops. cbn [snd fst]. destruct t as [c m s r]; simpl in *. subst r.
  do 8 (destruct k as [|k]; [eexists; reflexivity|]). lia.
Qed.

Lemma killed_blocks_lemma os w t k : Forall proper_op os -> proper_new t ->
  ~ In (t_id t) (put_ids os) -> k < 8 ->
  forall os' w', let s := rrun root (rrun root r_init (os ++ [RKilledNew w t (Some k)])) os' in
    (exists e, next_pending_of s w' = Err e) /\ (exists e, all_of s w' = Err e) /\
    put_new_of root s w' t = Err TrialAlreadyExistsError.
Proof.
  intros F (P & C & R & N) Ni K os' w' s.
  assert (I : rinv (rrun root r_init os)) by (apply rrun_inv; [apply rinit_inv|exact F]).
  set (s0 := rrun root r_init os) in *.
  assert (Kn : ~ known s0 (t_id t)).
  { unfold s0. rewrite known_run. intros [[x X]|X]; [discriminate X|auto]. }
  destruct (killed_unreadable (located root t) (r_next s0) k (located_plain t P) R K) as [e E].
  assert (L0 : lookup (dirname (t_id t)) (r_disk s0) = None).
  { unfold known in Kn. destruct (lookup (dirname (t_id t)) (r_disk s0)); [exfalso; eauto|reflexivity]. }
  assert (B : blocked (t_id t) (crash_after empty_dir (new_code empty_dir (located root t) (r_next s0)) k)
                (rrun root r_init (os ++ [RKilledNew w t (Some k)]))).
  { unfold rrun. rewrite fold_left_app. fold (rrun root r_init os). fold s0. simpl. unfold put_new_killed. rewrite L0.
    split; simpl.
    - rewrite lookup_app_none by exact L0. rewrite String.eqb_refl. reflexivity.
    - intros w''. unfold upd. destruct (Nat.eqb w'' w); [reflexivity|].
      destruct (lookup (t_id t) (r_cache s0 w'')) as [h|] eqn:Lh; [|reflexivity].
      destruct (ri_cache _ I w'' _ _ Lh) as (y & m & Ly & _). congruence. }
  pose proof (blocked_run _ _ _ os' C E _ B) as B'. fold s in B'. destruct B' as [L Nc].
  destruct (blocked_next _ _ _ _ _ C L E (Nc w')) as [[_ X] [_ Y]].
  split; [exact X|]. split; [exact Y|]. unfold put_new_of. rewrite (put_new_exists_lemma _ _ _ _ _ L). reflexivity.
Qed.
End Root.
