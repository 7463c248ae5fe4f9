(** Proofs about chains of trials and checkpoints. *)
From Coq Require Import Ascii String.
From Verif Require Import Py Py_proofs Trial_model Eval_model Chain_model Chain_spec.
Local Open Scope string_scope.
Local Open Scope list_scope.
Local Notation length := List.length.

(** ** Texts and paths *)
Lemma app_str_assoc (a b c : string) : ((a ++ b) ++ c)%string = (a ++ (b ++ c))%string.
Proof. induction a as [|x a IH]; [reflexivity|]. cbn [String.append]. now rewrite IH. Qed.

Lemma app_str_nil a : (a ++ "")%string = a.
Proof. induction a as [|x a IH]; [reflexivity|]. cbn [String.append]. now rewrite IH. Qed.

Lemma split_on_cons c s : exists w ws, split_on c s = w :: ws.
Proof.
  induction s as [|a s [w [ws IH]]]; cbn; [eauto|].
  destruct (Ascii.eqb a c); [eauto|]. rewrite IH. eauto.
Qed.

Lemma split_on_app c a b : split_on c (a ++ String c b)%string = split_on c a ++ split_on c b.
Proof.
  induction a as [|x a IH]; cbn.
  - now rewrite Ascii.eqb_refl.
  - destruct (Ascii.eqb x c); [now rewrite IH|].
    rewrite IH. destruct (split_on_cons c a) as [w [ws ->]]. reflexivity.
Qed.

Lemma split_on_none c s : ~ occurs c s -> split_on c s = [s].
Proof.
  induction s as [|a s IH]; cbn; [reflexivity|]. intros H.
  destruct (Ascii.eqb a c) eqn:E; [apply Ascii.eqb_eq in E; tauto|].
  rewrite IH by tauto. reflexivity.
Qed.

Lemma to_path_simple n : simple_name n -> to_path n = [n].
Proof.
  intros (A & B & C). unfold to_path. rewrite split_on_none by exact C. cbn [filter].
  destruct (String.eqb_spec n ""); [contradiction|]. destruct (String.eqb_spec n "."); [contradiction|]. reflexivity.
Qed.

Lemma occurs_app c a b : occurs c (a ++ b)%string <-> occurs c a \/ occurs c b.
Proof. induction a as [|x a IH]; cbn; [tauto|]. rewrite IH. tauto. Qed.

Lemma to_path_below root n : simple_name n -> to_path (root ++ "/" ++ n)%string = to_path root ++ [n].
Proof.
  intros S. change ("/" ++ n)%string with (String "/"%char n). unfold to_path.
  rewrite split_on_app, filter_app. f_equal. exact (to_path_simple n S).
Qed.

Lemma spellings_p a b :
  to_path (a ++ "/")%string = to_path a /\ to_path (a ++ "/.")%string = to_path a /\
  to_path (a ++ "//" ++ b)%string = to_path (a ++ "/" ++ b)%string /\
  to_path (a ++ "/./" ++ b)%string = to_path (a ++ "/" ++ b)%string /\
  to_path (a ++ "/" ++ b)%string = to_path a ++ to_path b.
Proof.
  assert (K : forall x y, to_path (x ++ String "/"%char y)%string = to_path x ++ to_path y).
  { intros x y. unfold to_path. now rewrite split_on_app, filter_app. }
  cbn [String.append]. rewrite !K. repeat split; try (apply app_nil_r).
Qed.

Lemma config_simple id : ~ occurs "/"%char id -> simple_name ("config_" ++ id)%string.
Proof.
  intros N. split; [discriminate|]. split; [discriminate|]. intros H. apply occurs_app in H.
  destruct H as [H|H]; [|contradiction]. cbn in H. intuition discriminate.
Qed.

Lemma config_id_of_config id : config_id_of ("config_" ++ id)%string = id.
Proof. reflexivity. Qed.

Lemma location_name root id : ~ occurs "/"%char id ->
  config_id_of (path_name (to_path (root ++ "/config_" ++ id)%string)) = id.
Proof.
  intros N. change ("/config_" ++ id)%string with ("/" ++ ("config_" ++ id))%string.
  rewrite to_path_below by now apply config_simple. unfold path_name. rewrite last_last. apply config_id_of_config.
Qed.

Lemma path_eqb_eq f g : path_eqb f g = true <-> f = g.
Proof.
  revert g. induction f as [|a f IH]; destruct g as [|b g]; cbn; split; intros H; try discriminate; try reflexivity.
  - apply andb_prop in H as [H1 H2]. apply String.eqb_eq in H1. apply IH in H2. now subst.
  - injection H as -> ->. rewrite String.eqb_refl. now apply IH.
Qed.
Lemma path_eqb_refl f : path_eqb f f = true.
Proof. now apply path_eqb_eq. Qed.

(** *** Extensions *)
Lemma rsplit_none s : rsplit_dot s = None <-> ~ occurs "."%char s.
Proof.
  induction s as [|a s IH]; cbn; [tauto|].
  destruct (rsplit_dot s) as [[b e]|].
  - split; [discriminate|]. intros H. exfalso.
    assert (N : ~ occurs "."%char s) by tauto. apply IH in N. discriminate.
  - destruct (Ascii.eqb_spec a "."%char) as [->|D]; split; try discriminate; try tauto.
Qed.

Lemma rsplit_some s b e : rsplit_dot s = Some (b, e) <-> s = (b ++ "." ++ e)%string /\ ~ occurs "."%char e.
Proof.
  revert b e. induction s as [|a s IH]; intros b e.
  - cbn. split; [discriminate|]. intros [H _]. destruct b; discriminate.
  - cbn [rsplit_dot]. destruct (rsplit_dot s) as [[b' e']|] eqn:E.
    + destruct (proj1 (IH b' e') eq_refl) as [-> N]. split.
      * intros [= <- <-]. split; [reflexivity|exact N].
      * intros [H N']. destruct b as [|x b].
        { exfalso. cbn in H. injection H as -> H. apply N'. rewrite <- H.
          apply occurs_app. right. left. reflexivity. }
        { cbn in H. injection H as -> H.
          pose proof (proj2 (IH b e) (conj H N')) as Q. injection Q as -> ->. reflexivity. }
    + apply rsplit_none in E. destruct (Ascii.eqb_spec a "."%char) as [->|D]; split.
      * intros [= <- <-]. split; [reflexivity|exact E].
      * intros [H N']. destruct b as [|x b]; cbn in H.
        { injection H as H2. now subst. }
        { injection H as H1 H2. exfalso. apply E. rewrite H2. apply occurs_app. right. left. reflexivity. }
      * discriminate.
      * intros [H N']. destruct b as [|x b]; cbn in H; injection H as H1 H2; [congruence|].
        exfalso. apply E. rewrite H2. apply occurs_app. right. left. reflexivity.
Qed.

Lemma base_is n b : base_name n b <-> b = without_suffix n.
Proof.
  unfold without_suffix. split.
  - intros [b' e Hb He N | n' H].
    + assert (E : rsplit_dot (b' ++ "." ++ e)%string = Some (b', e)) by (apply rsplit_some; auto).
      rewrite E. destruct (String.eqb_spec b' ""); [contradiction|]. destruct (String.eqb_spec e ""); [contradiction|]. reflexivity.
    + destruct (rsplit_dot n') as [[b' e]|] eqn:E; [|reflexivity].
      apply rsplit_some in E as [-> N].
      destruct (String.eqb_spec b' ""); [reflexivity|]. destruct (String.eqb_spec e ""); [reflexivity|].
      exfalso. exact (H b' e n0 n1 N eq_refl).
  - intros ->. destruct (rsplit_dot n) as [[b' e]|] eqn:E.
    + pose proof (proj1 (rsplit_some _ _ _) E) as [-> N].
      destruct (String.eqb_spec b' "") as [->|Hb]; cbn [orb].
      * apply base_without. intros b'' e'' H1 H2 H3 H4.
        pose proof (proj2 (rsplit_some ("" ++ "." ++ e)%string b'' e'') (conj H4 H3)) as Q. rewrite E in Q. congruence.
      * destruct (String.eqb_spec e "") as [->|He].
        { apply base_without. intros b'' e'' H1 H2 H3 H4.
          pose proof (proj2 (rsplit_some (b' ++ "." ++ "")%string b'' e'') (conj H4 H3)) as Q. rewrite E in Q. congruence. }
        { now apply base_with. }
    + apply base_without. intros b'' e'' H1 H2 H3 ->. apply (proj1 (rsplit_none _) E).
      apply occurs_app. right. left. reflexivity.
Qed.

Lemma checkpoint_path_simple dir n : simple_name n ->
  checkpoint_path dir n = Ok (dir ++ [(without_suffix n ++ ".pth")%string]).
Proof.
  intros S. unfold checkpoint_path.
  assert (J : join dir n = dir ++ [n]).
  { unfold join. destruct n as [|a n0] eqn:E; [destruct S; contradiction|]. rewrite <- E in *.
    destruct (Ascii.eqb_spec a "/"%char) as [->|D].
    - exfalso. destruct S as (_ & _ & S). apply S. rewrite E. now left.
    - now rewrite to_path_simple. }
  rewrite J. unfold with_suffix. destruct (dir ++ [n]) eqn:E; [destruct dir; discriminate|]. rewrite <- E.
  rewrite removelast_last. unfold path_name. now rewrite last_last.
Qed.

Lemma app_str_inj_r s a b : (a ++ s)%string = (b ++ s)%string -> a = b.
Proof.
  assert (L : forall a b, String.length (a ++ b)%string = String.length a + String.length b).
  { induction a0; intros; cbn; [reflexivity|]. now rewrite IHa0. }
  revert b. induction a as [|x a IH]; destruct b as [|y b]; intros H; [reflexivity| | |].
  - exfalso. apply (f_equal String.length) in H. rewrite !L in H. cbn in H. lia.
  - exfalso. apply (f_equal String.length) in H. rewrite !L in H. cbn in H. lia.
  - cbn in H. injection H as -> H. f_equal. exact (IH b H).
Qed.

(** ** Trials *)
Definition core (t : trial) : string * string * option string * option string :=
  (t_id t, m_location (t_meta t), m_previous_trial_id (t_meta t), m_previous_trial_location (t_meta t)).

Lemma core_update u t : core (apply_update u t) = core t.
Proof. now destruct u. Qed.

Fixpoint wf_repo (root : string) (r : repo) : Prop :=
  match r with
  | [] => True
  | t :: r' =>
      ~ In (t_id t) (map t_id r') /\
      m_location (t_meta t) = (root ++ "/config_" ++ t_id t)%string /\
      ((m_previous_trial_id (t_meta t) = None /\ m_previous_trial_location (t_meta t) = None) \/
       exists q, In q r' /\ m_previous_trial_id (t_meta t) = Some (t_id q) /\
         m_previous_trial_location (t_meta t) = Some (m_location (t_meta q))) /\
      wf_repo root r'
  end.

Lemma core_inj t t' : core t = core t' -> t_id t = t_id t' /\ m_location (t_meta t) = m_location (t_meta t') /\
  m_previous_trial_id (t_meta t) = m_previous_trial_id (t_meta t') /\
  m_previous_trial_location (t_meta t) = m_previous_trial_location (t_meta t').
Proof. unfold core. intros [= -> -> -> ->]. auto. Qed.

Lemma wf_cores root r : forall r', map core r = map core r' -> wf_repo root r -> wf_repo root r'.
Proof.
  induction r as [|t r IH]; intros [|t' r'] E W; try discriminate; [exact Logic.I|].
  cbn in E. injection E as E1 E2 E3 E4 E. destruct W as (A & B & C & W).
  assert (I : map t_id r = map t_id r').
  { assert (map (fun x => fst (fst (fst x))) (map core r) = map (fun x => fst (fst (fst x))) (map core r')) by now rewrite E.
    rewrite !map_map in H. exact H. }
  cbn [wf_repo]. repeat split.
  - now rewrite <- E1, <- I.
  - now rewrite <- E2, <- E1.
  - destruct C as [[C1 C2]|(q & Q & C1 & C2)].
    + left. now rewrite <- E3, <- E4.
    + right. apply (in_map core) in Q. rewrite E in Q. apply in_map_iff in Q as (q' & Q1 & Q2).
      apply core_inj in Q1 as (Q3 & Q4 & _). exists q'. split; [exact Q2|]. rewrite <- E3, <- E4, C1, C2, Q3, Q4. auto.
  - exact (IH r' E W).
Qed.

Lemma wf_ids root r : wf_repo root r -> NoDup (map t_id r).
Proof. induction r as [|t r IH]; cbn; [constructor|]. intros (A & _ & _ & W). constructor; auto. Qed.

Lemma wf_location root r t : wf_repo root r -> In t r -> m_location (t_meta t) = (root ++ "/config_" ++ t_id t)%string.
Proof. induction r as [|x r IH]; cbn; [tauto|]. intros (_ & B & _ & W) [<-|H]; auto. Qed.

Lemma wf_app root l r : wf_repo root (l ++ r) -> wf_repo root r.
Proof. induction l as [|x l IH]; cbn; [auto|]. intros (_ & _ & _ & W). auto. Qed.

Lemma wf_prev root r t : wf_repo root r -> In t r ->
  (m_previous_trial_id (t_meta t) = None /\ m_previous_trial_location (t_meta t) = None) \/
  exists q, In q r /\ m_previous_trial_id (t_meta t) = Some (t_id q) /\
    m_previous_trial_location (t_meta t) = Some (m_location (t_meta q)).
Proof.
  induction r as [|x r IH]; cbn; [tauto|]. intros (_ & _ & C & W) [<-|H].
  - destruct C as [C|(q & Q & C)]; [now left|]. right. exists q. auto.
  - destruct (IH W H) as [C'|(q & Q & C')]; [now left|]. right. exists q. auto.
Qed.

Lemma get_by_id_iff r id t : get_trial_by_id r id = Ok t -> In t r /\ t_id t = id.
Proof.
  unfold get_trial_by_id. destruct (find _ r) eqn:F; [|discriminate]. intros [= <-].
  apply find_some in F as [F1 F2]. apply String.eqb_eq in F2. auto.
Qed.
Lemma get_by_id_in r t : NoDup (map t_id r) -> In t r -> get_trial_by_id r (t_id t) = Ok t.
Proof.
  unfold get_trial_by_id. induction r as [|x r IH]; cbn; [tauto|]. intros N [<-|H].
  - now rewrite String.eqb_refl.
  - inversion N as [|? ? N1 N2]; subst. destruct (String.eqb_spec (t_id x) (t_id t)) as [E|D].
    + exfalso. apply N1. rewrite E. now apply in_map.
    + auto.
Qed.
Lemma get_by_id_none r id : ~ In id (map t_id r) -> exists e, get_trial_by_id r id = Err e.
Proof.
  unfold get_trial_by_id. destruct (find _ r) eqn:F; [|eauto]. intros N. exfalso. apply N.
  apply find_some in F as [F1 F2]. apply String.eqb_eq in F2. rewrite <- F2. now apply in_map.
Qed.
Lemma get_by_id_err r id e : get_trial_by_id r id = Err e -> ~ In id (map t_id r).
Proof.
  unfold get_trial_by_id. destruct (find _ r) eqn:F; [discriminate|]. intros _ H.
  apply in_map_iff in H as (t & H1 & H2). apply (find_none _ _ F) in H2. rewrite H1, String.eqb_refl in H2. discriminate.
Qed.

(** The walk along the chain *)
Lemma walk_first root r : wf_repo root r -> forall fuel l t l', r = l ++ t :: l' -> length l' <= fuel ->
  exists u, walk fuel r t = Ok u /\ first_of r t u /\ In u r /\ m_previous_trial_id (t_meta u) = None.
Proof.
  intros W. induction fuel as [|fuel IH]; intros l t l' E L.
  - assert (P : wf_repo root (t :: l')) by (apply (wf_app root l); now rewrite <- E).
    destruct P as (_ & _ & [[C _]|(q & Q & _)] & _).
    + exists t. cbn. rewrite C. assert (In t r) by (rewrite E; apply in_elt). repeat split; auto. now apply first_itself.
    + destruct l'; [destruct Q|cbn in L; lia].
  - assert (P : wf_repo root (t :: l')) by (apply (wf_app root l); now rewrite <- E).
    assert (Ht : In t r) by (rewrite E; apply in_elt).
    destruct P as (_ & _ & [[C _]|(q & Q & C & _)] & _).
    + exists t. cbn. rewrite C. repeat split; auto. now apply first_itself.
    + assert (Hq : In q r) by (rewrite E; apply in_or_app; right; right; exact Q).
      apply in_split in Q as (m1 & m2 & Q). rewrite Q in E, L.
      destruct (IH (l ++ t :: m1) q m2) as (u & U1 & U2 & U3 & U4).
      { rewrite E, <- app_assoc. reflexivity. }
      { rewrite app_length in L. cbn in L. lia. }
      exists u. cbn [walk]. rewrite C, (get_by_id_in r q (wf_ids root r W) Hq). cbn [bind].
      repeat split; auto. now apply (first_earlier r t q u).
Qed.

Lemma walk_in root r t : wf_repo root r -> In t r ->
  exists u, walk (length r) r t = Ok u /\ first_of r t u /\ In u r /\ m_previous_trial_id (t_meta u) = None.
Proof.
  intros W H. apply in_split in H as (l & l' & E). apply (walk_first root r W _ l t l' E).
  rewrite E, app_length. cbn. lia.
Qed.

Lemma first_self r t u : first_of r t u -> m_previous_trial_id (t_meta t) = None -> u = t.
Proof. intros [t0 _ _|t0 q u0 _ _ H _] N; [reflexivity|congruence]. Qed.

(** ** Runs *)
Section Run.
Variable pyfloat : pyval -> res fl.
Notation do_event := (do_event pyfloat).
Notation run := (run pyfloat).

Lemma run_app p es es' : run p (es ++ es') = run (run p es) es'.
Proof. apply fold_left_app. Qed.

Lemma repo_set root r root' p a b c d e f : repo_of (mkProc (set_key root r (p_repos p)) a b c d e f) root' =
  if String.eqb root' root then r else repo_of p root'.
Proof.
  unfold repo_of. cbn [p_repos]. rewrite lookup_set_key. destruct (String.eqb root' root); reflexivity.
Qed.

(** How the trials on disk change: at most one is put in front; cores stay. *)
Definition grows (r r' : repo) : Prop :=
  exists l r0, r' = l ++ r0 /\ map core r0 = map core r.
Lemma grows_refl r : grows r r.
Proof. now exists [], r. Qed.

Lemma do_event_repos p e : (forall a b, e <> Move a b) -> forall root,
  (wf_repo root (repo_of p root) -> wf_repo root (repo_of (do_event p e) root)) /\
  grows (repo_of p root) (repo_of (do_event p e) root).
Proof.
  intros NM root.
  destruct e as [|r|r id prev cfg time w|r id u|a b|d|f d|id|o tb drv du te cb| |d|d n v m o]; cbn [Chain_model.do_event];
    try (split; [auto|apply grows_refl]).
  - destruct (new_trial r (repo_of p r) id prev cfg time w) as [t|e] eqn:E; [|split; [auto|apply grows_refl]].
    rewrite repo_set.
    destruct (String.eqb_spec root r) as [->|D]; [|split; [auto|apply grows_refl]].
    split; [|exists [t], (repo_of p r); auto].
    intros W. unfold new_trial in E.
    destruct prev as [q|].
    + destruct (get_trial_by_id (repo_of p r) q) as [u|] eqn:G; [|discriminate]. cbn [bind] in E.
      destruct (get_trial_by_id (repo_of p r) id) eqn:G'; [discriminate|]. injection E as <-.
      apply get_by_id_iff in G as [G1 G2]. apply get_by_id_err in G'. cbn. repeat split; auto.
      right. exists u. rewrite G2. auto.
    + cbn [bind] in E. destruct (get_trial_by_id (repo_of p r) id) eqn:G'; [discriminate|]. injection E as <-.
      apply get_by_id_err in G'. cbn. repeat split; auto.
  - rewrite repo_set.
    destruct (String.eqb_spec root r) as [->|D]; [|split; [auto|apply grows_refl]].
    set (r' := map _ (repo_of p r)).
    assert (C : map core r' = map core (repo_of p r)).
    { unfold r'. rewrite map_map. apply map_ext. intros t. destruct (String.eqb (t_id t) id); [apply core_update|reflexivity]. }
    split.
    + now apply wf_cores.
    + exists [], r'. auto.
  - now destruct (NM a b).
  - unfold enter. destruct (get_workers_neps_state p); [|split; [auto|apply grows_refl]]. cbn [bind].
    destruct (get_trial_by_id _ _); [|split; [auto|apply grows_refl]]. cbn [bind].
    destruct (p_current p); split; auto; apply grows_refl.
  - destruct (finish pyfloat p o tb drv du te cb) eqn:F; [|split; [auto|apply grows_refl]].
    unfold finish in F. destruct (if p_inside p then _ else _); [|discriminate]. cbn [bind] in F.
    destruct (evaluate_trial _ _ _ _ _ _ _); [|discriminate]. cbn [bind] in F. destruct cb; [|discriminate].
    injection F as <-. split; [auto|apply grows_refl].
  - destruct (get_initial_directory p d) as [[x c]|]; split; auto; apply grows_refl.
  - destruct (save_checkpoint p d n v m o); split; auto; apply grows_refl.
Qed.

Lemma wf_start root : wf_repo root (repo_of start root).
Proof. exact Logic.I. Qed.

Lemma no_move_cons e es : no_move (e :: es) -> (forall a b, e <> Move a b) /\ no_move es.
Proof.
  intros N. split.
  - intros a b ->. apply (N a b). now left.
  - intros a b H. apply (N a b). now right.
Qed.

Lemma run_wf es : forall p, no_move es -> (forall root, wf_repo root (repo_of p root)) ->
  forall root, wf_repo root (repo_of (run p es) root).
Proof.
  induction es as [|e es IH]; intros p N W root; [apply W|].
  apply no_move_cons in N as [N1 N2]. cbn. apply IH; [exact N2|].
  intros root'. apply do_event_repos; auto.
Qed.

Lemma grows_core r r' t : grows r r' -> In t r -> exists t', In t' r' /\ core t' = core t.
Proof.
  intros (l & r0 & -> & C) H. apply (in_map core) in H. rewrite <- C in H. apply in_map_iff in H as (t' & H1 & H2).
  exists t'. split; [apply in_or_app; now right|exact H1].
Qed.

(** The cache, in general: it holds first trials only. *)
Definition cache_initial (p : proc) : Prop :=
  forall id d, lookup id (p_cache p) = Some d ->
  exists root t, In t (repo_of p root) /\ t_id t = id /\ m_previous_trial_id (t_meta t) = None.

(** What is being evaluated is a trial on disk. *)
Definition current_known (p : proc) : Prop :=
  forall c, p_current p = Some c -> exists root t, In t (repo_of p root) /\ core t = core c.

(** In a single run: *)
Definition one_run (root : string) (p : proc) : Prop :=
  (forall r, p_state p = Some r -> r = root) /\
  (forall c, p_current p = Some c -> exists t, In t (repo_of p root) /\ core t = core c) /\
  (forall id d, lookup id (p_cache p) = Some d ->
     exists t, In t (repo_of p root) /\ t_id t = id /\ m_previous_trial_id (t_meta t) = None /\
       d = to_path (m_location (t_meta t))).

Lemma one_run_grows root p p' : p_state p' = p_state p -> p_current p' = p_current p -> p_cache p' = p_cache p ->
  grows (repo_of p root) (repo_of p' root) -> one_run root p -> one_run root p'.
Proof.
  intros E1 E2 E3 G (A & B & C). unfold one_run. rewrite E1, E2, E3. repeat split; auto.
  - intros c Hc. destruct (B c Hc) as (t & T1 & T2). destruct (grows_core _ _ t G T1) as (t' & U1 & U2).
    exists t'. split; [exact U1|congruence].
  - intros id d H. destruct (C id d H) as (t & T1 & T2 & T3 & T4). destruct (grows_core _ _ t G T1) as (t' & U1 & U2).
    apply core_inj in U2 as (V1 & V2 & V3 & _). exists t'. rewrite V1, V2, V3. auto.
Qed.

(** A lookup gives the place of the first trial. *)
Lemma walk_core r fuel t t' : m_previous_trial_id (t_meta t) = m_previous_trial_id (t_meta t') ->
  m_previous_trial_id (t_meta t) <> None -> walk fuel r t = walk fuel r t'.
Proof. destruct fuel; cbn; intros <-; destruct (m_previous_trial_id (t_meta t)); tauto. Qed.

Lemma walk_snapshot root r c t : wf_repo root r -> In t r -> core t = core c ->
  exists u u', walk (length r) r c = Ok u' /\ core u' = core u /\ first_of r t u /\ In u r /\
    m_previous_trial_id (t_meta u) = None.
Proof.
  intros W H E. pose proof (eq_sym E) as E0. apply core_inj in E as (E1 & E2 & E3 & E4).
  destruct (walk_in root r t W H) as (u & U1 & U2 & U3 & U4).
  destruct (m_previous_trial_id (t_meta t)) as [q|] eqn:P.
  - exists u, u. repeat split; auto. rewrite <- U1. apply walk_core; congruence.
  - apply first_self in U2 as U5; [subst u|exact P]. exists t, c. repeat split; auto.
    destruct (length r); cbn; now rewrite <- E3.
Qed.

Lemma lookup_result root p d c t : wf_repo root (repo_of p root) -> one_run root p -> p_state p = Some root ->
  asked_trial p root d = Ok c -> In t (repo_of p root) -> core t = core c ->
  exists u, first_of (repo_of p root) t u /\ In u (repo_of p root) /\ m_previous_trial_id (t_meta u) = None /\
    (get_initial_directory p d = Ok (to_path (m_location (t_meta u)), p_cache p) \/
     get_initial_directory p d = Ok (to_path (m_location (t_meta u)), set_key (t_id u) (to_path (m_location (t_meta u))) (p_cache p))).
Proof.
  intros W (A & B & C) S E H K. unfold get_initial_directory, get_workers_neps_state. rewrite S. cbn [bind]. rewrite E. cbn [bind].
  pose proof (core_inj _ _ K) as (K1 & K2 & K3 & K4).
  destruct (lookup (t_id c) (p_cache p)) as [x|] eqn:L.
  - destruct (C _ _ L) as (t' & T1 & T2 & T3 & ->).
    assert (t' = t).
    { pose proof (get_by_id_in _ t' (wf_ids _ _ W) T1) as G1. pose proof (get_by_id_in _ t (wf_ids _ _ W) H) as G2.
      rewrite T2, <- K1 in G1. congruence. }
    subst t'. exists t. repeat split; auto. now apply first_itself.
  - destruct (walk_snapshot root _ c t W H K) as (u & u' & U1 & U2 & U3 & U4 & U5).
    apply core_inj in U2 as (V1 & V2 & _). exists u. repeat split; auto. right. rewrite U1. cbn [bind]. now rewrite V1, V2.
Qed.

Lemma asked_known root p d c : wf_repo root (repo_of p root) -> one_run root p ->
  asked_trial p root d = Ok c -> exists t, In t (repo_of p root) /\ core t = core c.
Proof.
  intros W (A & B & C) E. destruct d as [d|]; cbn in E.
  - apply get_by_id_iff in E as [E _]. eauto.
  - unfold get_in_progress_trial in E. destruct (p_current p) as [c'|] eqn:P; [|discriminate]. injection E as ->. now apply B.
Qed.

Lemma one_run_event root p e : (forall a b, e <> Move a b) -> (forall r, e = NewRun r -> r = root) ->
  wf_repo root (repo_of p root) -> one_run root p -> one_run root (do_event p e).
Proof.
  intros NM NR W O. pose proof (proj2 (do_event_repos p e NM root)) as G.
  destruct e as [|r|r id prev cfg time w|r id u|a b|d|f d|id|o tb drv du te cb| |d|d n v m o]; cbn [Chain_model.do_event] in *.
  - split; [|split]; cbn; intros; discriminate.
  - specialize (NR r eq_refl). subst r. destruct O as (A & B & C). split; [|split]; cbn; [congruence|exact B|exact C].
  - destruct (new_trial r (repo_of p r) id prev cfg time w); [|exact O]. now apply (one_run_grows root p).
  - now apply (one_run_grows root p).
  - now destruct (NM a b).
  - now apply (one_run_grows root p).
  - now apply (one_run_grows root p).
  - unfold enter in *. destruct (get_workers_neps_state p) as [r|] eqn:S; [|exact O]. cbn [bind] in *.
    destruct (get_trial_by_id (repo_of p r) id) as [t|] eqn:T; [|exact O]. cbn [bind] in *.
    destruct (p_current p) eqn:P; [exact O|]. destruct O as (A & B & C). split; [|split]; cbn; auto.
    intros c [= <-]. unfold get_workers_neps_state in S. destruct (p_state p) as [r'|] eqn:S'; [|discriminate]. injection S as ->.
    rewrite <- (A r eq_refl). apply get_by_id_iff in T as [T _]. eauto.
  - unfold finish in *. destruct (if p_inside p then _ else _); [|exact O]. cbn [bind] in *.
    destruct (evaluate_trial _ _ _ _ _ _ _); [|exact O]. cbn [bind] in *. destruct cb; [|exact O].
    destruct O as (A & B & C). split; [|split]; cbn; auto. discriminate.
  - exact O.
  - destruct (get_initial_directory p d) as [[x c]|] eqn:L; [|exact O].
    destruct O as (A & B & C). split; [exact A|]. split; [exact B|]. intros id y. cbn [p_cache]. intros H.
    pose proof L as L'. unfold get_initial_directory in L. destruct (get_workers_neps_state p) as [r|] eqn:S; [|discriminate]. cbn [bind] in L.
    assert (S' : p_state p = Some root).
    { unfold get_workers_neps_state in S. destruct (p_state p) as [r'|] eqn:Q; [|discriminate]. now rewrite (A r' eq_refl). }
    assert (r = root). { unfold get_workers_neps_state in S. rewrite S' in S. congruence. } subst r.
    destruct (asked_trial p root d) as [c0|] eqn:K; [|discriminate]. clear L.
    destruct (asked_known root p d c0 W (conj A (conj B C)) K) as (t & T1 & T2).
    destruct (lookup_result root p d c0 t W (conj A (conj B C)) S' K T1 T2) as (u & U1 & U2 & U3 & [U4|U4]);
      rewrite U4 in L'; injection L' as <- <-.
    + now apply C.
    + rewrite lookup_set_key in H. destruct (String.eqb_spec id (t_id u)) as [->|D]; [|now apply C].
      injection H as <-. exists u. auto.
  - destruct (save_checkpoint p d n v m o); [|exact O]. now apply (one_run_grows root p).
Qed.

Lemma one_run_all root es : forall p, no_move es -> only_runs root es -> (forall r, wf_repo r (repo_of p r)) ->
  one_run root p -> one_run root (run p es).
Proof.
  induction es as [|e es IH]; intros p N R W O; [exact O|].
  apply no_move_cons in N as [N1 N2]. cbn. apply IH.
  - exact N2.
  - intros r H. apply R. now right.
  - intros r. apply do_event_repos; auto.
  - apply one_run_event; auto. intros r ->. apply R. now left.
Qed.

(** *** C60 *)
Section Single.
  Variables (root : string) (before es : list event).
  Hypothesis (NM1 : no_move before) (NM2 : no_move es) (R : only_runs root es).
  Let p := run start (before ++ NewProcess :: es).

  Lemma single_facts : wf_repo root (repo_of p root) /\ one_run root p.
  Proof.
    assert (W : forall r, wf_repo r (repo_of (run start before) r)) by (apply run_wf; [exact NM1|apply wf_start]).
    assert (W' : forall r, wf_repo r (repo_of (do_event (run start before) NewProcess) r)) by exact W.
    unfold p. rewrite run_app. cbn [Chain_model.run fold_left].
    change (fold_left do_event es (do_event (run start before) NewProcess)) with (run (do_event (run start before) NewProcess) es).
    split.
    - now apply run_wf.
    - apply one_run_all; auto. split; [|split]; cbn; intros; discriminate.
  Qed.

  Lemma initial_by_directory_p t d : p_state p = Some root -> In t (repo_of p root) -> ~ occurs "/"%char (t_id t) ->
    to_path d = to_path (m_location (t_meta t)) ->
    exists u c, first_of (repo_of p root) t u /\ get_initial_directory p (Some d) = Ok (to_path (m_location (t_meta u)), c).
  Proof.
    intros S H N E. destruct single_facts as [W O].
    assert (K : asked_trial p root (Some d) = Ok t).
    { cbn. rewrite E, (wf_location root _ t W H), location_name by exact N. apply get_by_id_in; auto. now apply (wf_ids root). }
    destruct (lookup_result root p (Some d) t t W O S K H eq_refl) as (u & U1 & _ & _ & [U|U]); eauto.
  Qed.

  Lemma initial_in_progress_p c : p_state p = Some root -> p_current p = Some c ->
    exists t u x, In t (repo_of p root) /\ t_id t = t_id c /\ first_of (repo_of p root) t u /\
      get_initial_directory p None = Ok (to_path (m_location (t_meta u)), x).
  Proof.
    intros S P. destruct single_facts as [W O].
    assert (K : asked_trial p root None = Ok c) by (cbn; unfold get_in_progress_trial; now rewrite P).
    destruct (asked_known root p None c W O K) as (t & T1 & T2).
    destruct (lookup_result root p None c t W O S K T1 T2) as (u & U1 & _ & _ & [U|U]); apply core_inj in T2 as (T2 & _); eauto 8.
  Qed.
End Single.

Lemma locations_p es root t : no_move es -> In t (repo_of (run start es) root) ->
  m_location (t_meta t) = (root ++ "/config_" ++ t_id t)%string.
Proof. intros N H. exact (wf_location root _ t (run_wf es start N wf_start root) H). Qed.

Lemma previous_location_p es root t : no_move es -> In t (repo_of (run start es) root) ->
  match m_previous_trial_id (t_meta t) with
  | None => m_previous_trial_location (t_meta t) = None
  | Some id => exists q, In q (repo_of (run start es) root) /\ t_id q = id /\
      m_previous_trial_location (t_meta t) = Some (m_location (t_meta q))
  end.
Proof.
  intros N H. destruct (wf_prev root _ t (run_wf es start N wf_start root) H) as [[-> ->]|(q & Q & -> & ->)]; eauto.
Qed.

(** *** Several runs in a process *)
Lemma cache_initial_event p e : (forall a b, e <> Move a b) -> (forall r, wf_repo r (repo_of p r)) ->
  cache_initial p /\ current_known p -> cache_initial (do_event p e) /\ current_known (do_event p e).
Proof.
  intros NM W [O P]. pose proof (fun r => proj2 (do_event_repos p e NM r)) as G.
  assert (K : forall p', p_cache p' = p_cache p -> (forall r, grows (repo_of p r) (repo_of p' r)) -> cache_initial p').
  { intros p' E G' id d H. rewrite E in H. destruct (O id d H) as (r & t & T1 & T2 & T3).
    destruct (grows_core _ _ t (G' r) T1) as (t' & U1 & U2). apply core_inj in U2 as (V1 & _ & V3 & _).
    exists r, t'. rewrite V1, V3. auto. }
  assert (K' : forall p', p_current p' = p_current p -> (forall r, grows (repo_of p r) (repo_of p' r)) -> current_known p').
  { intros p' E G' c H. rewrite E in H. destruct (P c H) as (r & t & T1 & T2).
    destruct (grows_core _ _ t (G' r) T1) as (t' & U1 & U2). exists r, t'. split; [exact U1|congruence]. }
  destruct e as [|r|r id prev cfg time w|r id u|a b|d|f d|id|o tb drv du te cb| |d|d n v m o]; cbn [Chain_model.do_event] in *;
    try (split; [now apply K|now apply K']).
  - split; [intros id d H|intros c H]; discriminate.
  - destruct (new_trial r (repo_of p r) id prev cfg time w); split; auto.
  - unfold enter in *. destruct (get_workers_neps_state p) as [r|]; [|auto]. cbn [bind] in *.
    destruct (get_trial_by_id (repo_of p r) id) as [t|] eqn:T; [|auto]. cbn [bind] in *. destruct (p_current p); [auto|].
    split; [now apply K|]. intros c [= <-]. apply get_by_id_iff in T as [T _]. exists r, t. auto.
  - unfold finish in *. destruct (if p_inside p then _ else _); [|auto]. cbn [bind] in *.
    destruct (evaluate_trial _ _ _ _ _ _ _); [|auto]. cbn [bind] in *. destruct cb; [|auto]. split; [now apply K|]. discriminate.
  - destruct (get_initial_directory p d) as [[x c]|] eqn:L; [|auto]. split; [|exact P].
    unfold get_initial_directory in L. destruct (get_workers_neps_state p) as [r|]; [|discriminate]. cbn [bind] in L.
    destruct (asked_trial p r d) as [c0|] eqn:A; [|discriminate]. cbn [bind] in L.
    destruct (lookup (t_id c0) (p_cache p)); [injection L as <- <-; exact O|].
    destruct (walk (length (repo_of p r)) (repo_of p r) c0) as [u|] eqn:V; [|discriminate]. cbn [bind] in L. injection L as <- <-.
    assert (U : exists root t, In t (repo_of p root) /\ core t = core u).
    { assert (T : forall fuel c, walk fuel (repo_of p r) c = Ok u -> (exists root t, In t (repo_of p root) /\ core t = core c) ->
                  exists root t, In t (repo_of p root) /\ core t = core u).
      { induction fuel as [|fuel IH]; intros c; cbn; destruct (m_previous_trial_id (t_meta c)) as [q|]; try discriminate;
          try (intros [= <-]; auto; fail).
        destruct (get_trial_by_id (repo_of p r) q) as [c'|] eqn:Q; [|discriminate]. cbn [bind]. intros H _.
        apply (IH c' H). apply get_by_id_iff in Q as [Q _]. eauto. }
      apply (T _ _ V). destruct d as [d|]; cbn in A.
      - apply get_by_id_iff in A as [A _]. eauto.
      - unfold get_in_progress_trial in A. destruct (p_current p) as [c'|] eqn:Pc; [|discriminate]. injection A as <-. now apply P. }
    assert (I : m_previous_trial_id (t_meta u) = None).
    { clear U. revert V. generalize c0. generalize (length (repo_of p r)). induction n as [|n IH]; intros c; cbn;
        destruct (m_previous_trial_id (t_meta c)) as [q|] eqn:E; try discriminate; try (intros [= <-]; exact E).
      destruct (get_trial_by_id (repo_of p r) q) as [c'|]; [|discriminate]. cbn [bind]. apply IH. }
    intros id y. cbn [p_cache]. rewrite lookup_set_key. destruct (String.eqb_spec id (t_id u)) as [->|D].
    + intros _. destruct U as (root & t & U1 & U2). apply core_inj in U2 as (V1 & _ & V3 & _). exists root, t. rewrite V1, V3. auto.
    + intros H. apply (O id y H).
  - destruct (save_checkpoint p d n v m o); split; auto.
Qed.

Lemma cache_initial_all es : forall p, no_move es -> (forall r, wf_repo r (repo_of p r)) ->
  cache_initial p /\ current_known p -> cache_initial (run p es) /\ current_known (run p es).
Proof.
  induction es as [|e es IH]; intros p N W O; [exact O|].
  apply no_move_cons in N as [N1 N2]. cbn. apply IH.
  - exact N2.
  - intros r. apply do_event_repos; auto.
  - apply cache_initial_event; auto.
Qed.

Lemma initial_of_continued_p es root t d : no_move es -> let p := run start es in
  p_state p = Some root -> In t (repo_of p root) -> ~ occurs "/"%char (t_id t) ->
  (forall root' t', In t' (repo_of p root') -> t_id t' = t_id t -> m_previous_trial_id (t_meta t') <> None) ->
  to_path d = to_path (m_location (t_meta t)) ->
  exists u c, first_of (repo_of p root) t u /\ get_initial_directory p (Some d) = Ok (to_path (m_location (t_meta u)), c).
Proof.
  intros N p S H NS I E.
  assert (W : wf_repo root (repo_of p root)) by (apply run_wf; [exact N|apply wf_start]).
  assert (O : cache_initial p).
  { apply cache_initial_all; [exact N|apply wf_start|]. split; intros ? ?; discriminate. }
  destruct (walk_in root _ t W H) as (u & U1 & U2 & _). exists u.
  unfold get_initial_directory, get_workers_neps_state. rewrite S. cbn [bind]. unfold asked_trial.
  rewrite E, (wf_location root _ t W H), location_name, (get_by_id_in _ t (wf_ids root _ W) H) by exact NS. cbn [bind].
  destruct (lookup (t_id t) (p_cache p)) as [x|] eqn:L.
  - exfalso. destruct (O _ _ L) as (r & t' & T1 & T2 & T3). exact (I r t' T1 T2 T3).
  - rewrite U1. cbn [bind]. eauto.
Qed.

(** *** Checkpoints *)
Lemma find_put fs f d g : find_file (put_file fs f d) g = if path_eqb f g then Some d else find_file fs g.
Proof.
  unfold find_file, put_file. cbn [find fst]. destruct (path_eqb f g) eqn:E; [reflexivity|].
  f_equal. induction fs as [|[h x] fs IH]; [reflexivity|]. cbn.
  destruct (path_eqb h f) eqn:F; cbn.
  - apply path_eqb_eq in F. subst h. now rewrite E.
  - destruct (path_eqb h g); [reflexivity|exact IH].
Qed.

Lemma save_directory_saves p d n v m o dir : save_directory p d = Ok dir -> base_name n (without_suffix n) ->
  saves_to p (Save d n v m o) dir (without_suffix n).
Proof.
  intros H B. exists d, n, v, m, o. split; [reflexivity|]. split; [|exact B]. destruct d as [s|]; cbn in H.
  - now injection H as ->.
  - unfold get_in_progress_trial in H. destruct (p_current p) as [t|]; [|discriminate]. injection H as <-. eauto.
Qed.

Lemma undisturbed_files es : forall p dir b, undisturbed pyfloat p es dir b ->
  find_file (p_files (run p es)) (dir ++ [(b ++ ".pth")%string]) = find_file (p_files p) (dir ++ [(b ++ ".pth")%string]).
Proof.
  induction es as [|e es IH]; intros p dir b U; [reflexivity|]. destruct U as (U1 & U2 & U3 & U4 & U).
  cbn. etransitivity; [apply IH; exact U|].
  destruct e as [|r|r id prev cfg time w|r id u|a b'|d|f d|id|o tb drv du te cb| |d|d n v m o]; cbn [Chain_model.do_event]; try reflexivity.
  - destruct (new_trial r (repo_of p r) id prev cfg time w); reflexivity.
  - now destruct (U4 a b').
  - now destruct (U3 f d).
  - unfold enter. destruct (get_workers_neps_state p); [|reflexivity]. cbn [bind]. destruct (get_trial_by_id _ _); [|reflexivity]. cbn [bind].
    destruct (p_current p); reflexivity.
  - unfold finish. destruct (if p_inside p then _ else _); [|reflexivity]. cbn [bind].
    destruct (evaluate_trial _ _ _ _ _ _ _); [|reflexivity]. cbn [bind]. destruct cb; reflexivity.
  - destruct (get_initial_directory p d) as [[x c]|]; reflexivity.
  - unfold save_checkpoint. destruct (save_directory p d) as [dir'|] eqn:D; [|reflexivity]. cbn [bind].
    rewrite checkpoint_path_simple by exact (U2 d n v m o eq_refl). cbn [bind].
    destruct (existsb _ _); [|reflexivity]. cbn [p_files]. rewrite find_put.
    destruct (path_eqb _ _) eqn:E; [|reflexivity]. exfalso. apply path_eqb_eq in E.
    apply app_inj_tail in E as [-> E]. apply app_str_inj_r in E. apply U1. rewrite <- E.
    apply save_directory_saves; [exact D|]. now apply base_is.
Qed.

Lemma lookup_fold (v : dict) : forall k d, NoDup (map fst v) ->
  lookup k (fold_left (fun d kv => set_key (fst kv) (snd kv) d) v d) =
  match lookup k v with Some x => Some x | None => lookup k d end.
Proof.
  induction v as [|[k' x] v IH]; intros k d N; [reflexivity|]. inversion N as [|? ? N1 N2]; subst.
  cbn [fold_left fst snd]. rewrite IH by exact N2. cbn [lookup].
  destruct (String.eqb_spec k k') as [->|D].
  - assert (lookup k' v = None) as -> by now apply lookup_None. rewrite lookup_set_key, String.eqb_refl. reflexivity.
  - destruct (lookup k v); [reflexivity|]. rewrite lookup_set_key. destruct (String.eqb_spec k k'); [contradiction|reflexivity].
Qed.

Lemma saved_lookup values m o k : NoDup (map fst (match values with Some v => v | None => [] end)) ->
  lookup k (saved_dict values m o) =
  match match values with Some v => lookup k v | None => None end with
  | Some x => Some x
  | None => if String.eqb k "model_state_dict" then m else if String.eqb k "optimizer_state_dict" then o else None
  end.
Proof.
  intros N. unfold saved_dict.
  set (d2 := match o with Some s => _ | None => _ end).
  assert (E : lookup k d2 = if String.eqb k "model_state_dict" then m else if String.eqb k "optimizer_state_dict" then o else None).
  { unfold d2. clear. destruct (String.eqb_spec k "model_state_dict") as [->|N1]; [now destruct m, o|].
    destruct (String.eqb_spec k "optimizer_state_dict") as [->|N2]; [now destruct m, o|].
    apply String.eqb_neq in N1, N2. destruct m, o; lazy beta iota zeta delta [set_key String.eqb Ascii.eqb Bool.eqb];
      cbn [lookup]; rewrite ?N1, ?N2; reflexivity. }
  destruct values as [v|]; [|exact E]. rewrite lookup_fold by exact N. now rewrite E.
Qed.

Lemma checkpoint_continued_p p t n values m o es b t' n' wm wo :
  p_current p = Some t -> simple_name n -> base_name n b ->
  existsb (path_eqb (to_path (m_location (t_meta t)))) (p_dirs p) = true ->
  NoDup (map fst (match values with Some v => v | None => [] end)) ->
  let p1 := do_event p (Save None n values m o) in
  undisturbed pyfloat p1 es (to_path (m_location (t_meta t))) b ->
  let p2 := run p1 es in
  p_current p2 = Some t' -> m_previous_trial_location (t_meta t') = Some (m_location (t_meta t)) ->
  simple_name n' -> base_name n' b ->
  exists c, load_checkpoint p2 None n' wm wo = Ok (mkLoaded (Some c)
    (if wm then lookup "model_state_dict" c else None) (if wo then lookup "optimizer_state_dict" c else None)) /\
    forall k, lookup k c =
      match match values with Some v => lookup k v | None => None end with
      | Some x => Some x
      | None => if String.eqb k "model_state_dict" then m else if String.eqb k "optimizer_state_dict" then o else None
      end.
Proof.
  intros C S B X N p1 U p2 C' L S' B'. exists (saved_dict values m o). split; [|intros k; now apply saved_lookup].
  apply base_is in B. apply base_is in B'.
  unfold load_checkpoint, load_directory, get_in_progress_trial. rewrite C'. cbn [bind]. rewrite L. cbn [option_map bind].
  rewrite checkpoint_path_simple, <- B' by exact S'. cbn [bind].
  unfold p2. rewrite (undisturbed_files es p1 _ b U).
  unfold p1. cbn [Chain_model.do_event]. unfold save_checkpoint, save_directory, get_in_progress_trial. rewrite C. cbn [bind].
  rewrite checkpoint_path_simple, <- B by exact S. cbn [bind]. rewrite removelast_last, X. cbn [p_files].
  rewrite find_put, path_eqb_refl. reflexivity.
Qed.

Lemma load_nothing_p es b t n wm wo d : let p := run start es in
  p_current p = Some t -> m_previous_trial_location (t_meta t) = Some d ->
  simple_name n -> base_name n b -> undisturbed pyfloat start es (to_path d) b ->
  load_checkpoint p None n wm wo = Ok nothing_loaded.
Proof.
  intros p C L S B U. apply base_is in B.
  unfold load_checkpoint, load_directory, get_in_progress_trial. rewrite C. cbn [bind]. rewrite L. cbn [option_map bind].
  rewrite checkpoint_path_simple, <- B by exact S. cbn [bind].
  unfold p. rewrite (undisturbed_files es start _ b U). reflexivity.
Qed.

(** Directories of trials exist. *)
Lemma dirs_event p e : (forall a b, e <> Move a b) -> incl (p_dirs p) (p_dirs (do_event p e)).
Proof.
  intros NM.
  destruct e as [|r|r id prev cfg time w|r id u|a b|d|f d|id|o tb drv du te cb| |d|d n v m o]; cbn [Chain_model.do_event];
    try (apply incl_refl).
  - destruct (new_trial r (repo_of p r) id prev cfg time w); [apply incl_tl|]; apply incl_refl.
  - now destruct (NM a b).
  - apply incl_tl, incl_refl.
  - unfold enter. destruct (get_workers_neps_state p); [|apply incl_refl]. cbn [bind]. destruct (get_trial_by_id _ _); [|apply incl_refl]. cbn [bind].
    destruct (p_current p); apply incl_refl.
  - unfold finish. destruct (if p_inside p then _ else _); [|apply incl_refl]. cbn [bind].
    destruct (evaluate_trial _ _ _ _ _ _ _); [|apply incl_refl]. cbn [bind]. destruct cb; apply incl_refl.
  - destruct (get_initial_directory p d) as [[x c]|]; apply incl_refl.
  - destruct (save_checkpoint p d n v m o); apply incl_refl.
Qed.

Definition dirs_known (p : proc) : Prop :=
  forall root t, In t (repo_of p root) -> In (to_path (m_location (t_meta t))) (p_dirs p).

Lemma dirs_known_event p e : (forall a b, e <> Move a b) -> dirs_known p -> dirs_known (do_event p e).
Proof.
  intros NM D root t H.
  assert (K : forall t0, In t0 (repo_of p root) -> core t = core t0 ->
              In (to_path (m_location (t_meta t))) (p_dirs (do_event p e))).
  { intros t0 H0 E. apply core_inj in E as (_ & -> & _). apply (dirs_event p e NM). now apply (D root). }
  destruct e as [|r|r id prev cfg time w|r id u|a b|d|f d|id|o tb drv du te cb| |d|d n v m o]; cbn [Chain_model.do_event] in H;
    try (now apply (K t)).
  - cbn [Chain_model.do_event] in *. destruct (new_trial r (repo_of p r) id prev cfg time w) as [t1|] eqn:E; [|now apply (D root)].
    cbn [p_dirs]. unfold repo_of in H. cbn [p_repos] in H. rewrite lookup_set_key in H.
    destruct (String.eqb_spec root r) as [->|N].
    + destruct H as [<-|H]; [now left|]. right. now apply (D r).
    + right. now apply (D root).
  - unfold repo_of in H. cbn [p_repos] in H. rewrite lookup_set_key in H.
    destruct (String.eqb_spec root r) as [->|N]; [|now apply (K t)].
    apply in_map_iff in H as (t0 & H1 & H2). apply (K t0 H2). rewrite <- H1.
    destruct (String.eqb (t_id t0) id); [apply core_update|reflexivity].
  - now destruct (NM a b).
  - apply (K t); [|reflexivity]. unfold enter in H. destruct (get_workers_neps_state p); [|exact H]. cbn [bind] in H.
    destruct (get_trial_by_id _ _); [|exact H]. cbn [bind] in H. destruct (p_current p); exact H.
  - apply (K t); [|reflexivity]. unfold finish in H. destruct (if p_inside p then _ else _); [|exact H]. cbn [bind] in H.
    destruct (evaluate_trial _ _ _ _ _ _ _); [|exact H]. cbn [bind] in H. destruct cb; exact H.
  - apply (K t); [|reflexivity]. destruct (get_initial_directory p d) as [[x c]|]; exact H.
  - apply (K t); [|reflexivity]. destruct (save_checkpoint p d n v m o); exact H.
Qed.

Lemma dirs_known_all es : forall p, no_move es -> dirs_known p -> dirs_known (run p es).
Proof.
  induction es as [|e es IH]; intros p N D; [exact D|].
  apply no_move_cons in N as [N1 N2]. cbn. apply IH; [exact N2|]. now apply dirs_known_event.
Qed.

Lemma trial_directory_exists_p es t : no_move es -> p_current (run start es) = Some t ->
  existsb (path_eqb (to_path (m_location (t_meta t)))) (p_dirs (run start es)) = true.
Proof.
  intros N C.
  assert (D : dirs_known (run start es)) by (apply dirs_known_all; [exact N|]; intros ? ? []).
  assert (O : current_known (run start es)).
  { apply cache_initial_all; [exact N|apply wf_start|]. split; intros ? ?; discriminate. }
  destruct (O t C) as (root & t' & T1 & T2). apply core_inj in T2 as (_ & T2 & _).
  apply existsb_exists. exists (to_path (m_location (t_meta t))). split; [|apply path_eqb_refl].
  rewrite <- T2. now apply (D root).
Qed.

(** *** Lightning *)
Lemma ends_with_iff s x : ends_with s x = true <-> exists a, x = (a ++ s)%string.
Proof.
  induction x as [|c x IH]; cbn [ends_with]; rewrite orb_true_iff, String.eqb_eq.
  - split.
    + intros [<-|H]; [now exists ""|discriminate].
    + intros [a H]. destruct a; [now left|discriminate].
  - rewrite IH. split.
    + intros [<-|[a ->]]; [now exists ""|now exists (String c a)].
    + intros [[|c' a] H]; [now left|]. cbn in H. injection H as <- H. right. eauto.
Qed.

Lemma ckpt_files_iff fs dir x : In x (ckpt_files fs dir) <-> In x fs /\ exists n, fst x = dir ++ [(n ++ ".ckpt")%string].
Proof.
  unfold ckpt_files. rewrite filter_In. destruct x as [f d]. cbn [fst]. destruct f as [|a f0] eqn:F.
  - split; [intros [_ H]; discriminate|]. intros [_ [n H]]. destruct dir; discriminate.
  - rewrite <- F. rewrite andb_true_iff, path_eqb_eq, ends_with_iff. split.
    + intros [H [<- [n E]]]. split; [exact H|]. exists n. rewrite <- E. unfold path_name. apply app_removelast_last. rewrite F. discriminate.
    + intros [H [n ->]]. split; [exact H|]. rewrite removelast_last. split; [reflexivity|]. exists n. unfold path_name. apply last_last.
Qed.

(** *** C105 *)
Lemma finish_clean_p p t o tb drv du te : p_current p = Some t -> p_inside p = true -> reportable pyfloat drv o ->
  exists p', finish pyfloat p o tb drv du te true = Ok p' /\ do_event p (Finish o tb drv du te true) = p' /\
    p_current p' = None /\
    forall root r id, In id (map t_id r) -> repo_of p' root = r ->
      is_ok (enter (do_event p' (NewRun root)) id) = true.
Proof.
  intros C I R.
  assert (E : exists p', finish pyfloat p o tb drv du te true = Ok p' /\ p_current p' = None).
  { unfold finish. rewrite I. unfold get_in_progress_trial. rewrite C. cbn [bind].
    destruct o as [v|e]; cbn [evaluate_trial].
    - cbn in R. destruct (parse_user_result _ _ _ _) as [[[[a b] c] d]|]; [|discriminate]. cbn [bind].
      eexists. split; [reflexivity|]. reflexivity.
    - cbn [bind]. eexists. split; reflexivity. }
  destruct E as (p' & E & N). exists p'. split; [exact E|]. split; [cbn [Chain_model.do_event]; now rewrite E|]. split; [exact N|].
  intros root r id H Hr. unfold enter. cbn [Chain_model.do_event get_workers_neps_state p_state bind].
  unfold repo_of in *. cbn [p_repos p_current]. rewrite Hr, N.
  destruct (get_trial_by_id r id) eqn:G; [reflexivity|]. now apply get_by_id_err in G.
Qed.

Definition stuck (t : trial) (p : proc) : Prop := p_current p = Some t /\ p_inside p = false.

Lemma stuck_event t p e : e <> NewProcess -> stuck t p -> stuck t (do_event p e).
Proof.
  intros N [C I].
  destruct e as [|r|r id prev cfg time w|r id u|a b|d|f d|id|o tb drv du te cb| |d|d n v m o]; cbn [Chain_model.do_event];
    try (now split).
  - destruct (new_trial r (repo_of p r) id prev cfg time w); now split.
  - unfold enter. destruct (get_workers_neps_state p); [|now split]. cbn [bind]. destruct (get_trial_by_id _ _); [|now split]. cbn [bind].
    rewrite C. now split.
  - unfold finish. rewrite I. now split.
  - destruct (get_initial_directory p d) as [[x c]|]; now split.
  - destruct (save_checkpoint p d n v m o); now split.
Qed.

Lemma stuck_all t es : forall p, ~ In NewProcess es -> stuck t p -> stuck t (run p es).
Proof.
  induction es as [|e es IH]; intros p N S; [exact S|]. cbn. apply IH.
  - intros H. apply N. now right.
  - apply stuck_event; [|exact S]. intros ->. apply N. now left.
Qed.

Lemma escape_stuck_p p t o tb drv du te cb : p_current p = Some t -> ~ (reportable pyfloat drv o /\ cb = true) ->
  stuck t (do_event p (Finish o tb drv du te cb)) \/ p_inside p = false.
Proof.
  intros C H. destruct (p_inside p) eqn:I; [left|now right]. cbn [Chain_model.do_event]. unfold finish. rewrite I.
  unfold get_in_progress_trial. rewrite C. cbn [bind].
  destruct o as [v|e]; cbn [evaluate_trial].
  - cbn [reportable] in H. destruct (parse_user_result _ _ _ _) as [[[[a b] c] d]|]; cbn [bind is_ok] in *; [|now split].
    destruct cb; [tauto|now split].
  - cbn [bind reportable] in *. destruct cb; [tauto|now split].
Qed.

Lemma stuck_enter p t id root : stuck t p -> p_state p = Some root -> In id (map t_id (repo_of p root)) -> enter p id = Err NePSError.
Proof.
  intros [C I] S H. unfold enter, get_workers_neps_state. rewrite S. cbn [bind].
  destruct (get_trial_by_id (repo_of p root) id) eqn:G; [|now apply get_by_id_err in G]. cbn [bind]. now rewrite C.
Qed.
End Run.
