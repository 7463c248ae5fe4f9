(** Proofs about the logger for TensorBoard. *)
From Coq Require Import Ascii String.
From Verif Require Import Py Py_proofs Trial_model Limit_spec Status_spec Eval_model Status_model Status_proofs Chain_model Chain_spec Chain_proofs
  Tb_model Tb_spec.
Local Open Scope string_scope.
Local Open Scope list_scope.
Local Notation length := List.length.

(** ** Chains while trials are added *)
Lemma first_grows r r' t u : first_of r t u -> grows r r' -> forall t', In t' r' -> core t' = core t ->
  exists u', first_of r' t' u' /\ core u' = core u.
Proof.
  intros F G. induction F as [t H N|t q u H Q N F IH]; intros t' I C; pose proof (core_inj _ _ C) as (C1 & C2 & C3 & C4).
  - exists t'. split; [apply first_itself; [exact I|congruence]|exact C].
  - destruct (grows_core r r' q G Q) as (q' & Q1 & Q2). destruct (IH q' Q1 Q2) as (u' & U1 & U2).
    exists u'. split; [|exact U2]. apply (first_earlier r' t' q' u'); auto.
    apply core_inj in Q2 as (Q2 & _). congruence.
Qed.

Lemma first_in r t u : first_of r t u -> In u r.
Proof. intros F; now induction F. Qed.
Lemma first_none r t u : first_of r t u -> m_previous_trial_id (t_meta u) = None.
Proof. intros F; now induction F. Qed.

Section Run.
Variable pyfloat : pyval -> res fl.
Notation do_event := (do_event pyfloat).
Notation do_tevent := (do_tevent pyfloat).
Notation trun := (trun pyfloat).

(** ** The process *)
Lemma ids_event p e root t : (forall a b, e <> Move a b) -> In t (repo_of (do_event p e) root) ->
  (exists t0, In t0 (repo_of p root) /\ t_id t0 = t_id t) \/ (exists prev cfg time w, e = Sample root (t_id t) prev cfg time w).
Proof.
  intros NM H.
  destruct e as [|r|r id prev cfg time w|r id u|a b|d|f d|id|o tb drv du te cb| |d|d n v m o]; cbn [Chain_model.do_event] in H;
    try (left; exists t; split; [exact H|reflexivity]).
  - destruct (new_trial r (repo_of p r) id prev cfg time w) as [x|] eqn:E; [|left; eauto].
    rewrite repo_set in H. destruct (String.eqb_spec root r) as [->|]; [|left; eauto].
    destruct H as [->|H]; [right|left; eauto]. unfold new_trial in E.
    destruct (match prev with Some _ => _ | None => _ end); [|discriminate]. cbn [bind] in E.
    destruct (get_trial_by_id (repo_of p r) id); [discriminate|]. injection E as <-. cbn. eauto 8.
  - rewrite repo_set in H. destruct (String.eqb_spec root r) as [->|]; [|left; eauto].
    left. apply in_map_iff in H as (t0 & H1 & H2). exists t0. split; [exact H2|]. subst t.
    destruct (String.eqb (t_id t0) id); [|reflexivity]. symmetry. apply (core_inj _ _ (core_update u t0)).
  - now destruct (NM a b).
  - destruct (enter p id) as [p'|] eqn:E; [|left; eauto]. unfold enter in E.
    destruct (get_workers_neps_state p); [|discriminate]. cbn [bind] in E. destruct (get_trial_by_id _ _); [|discriminate]. cbn [bind] in E.
    destruct (p_current p); [discriminate|]. injection E as <-. left; eauto.
  - destruct (finish pyfloat p o tb drv du te cb) as [p'|] eqn:E; [|left; eauto]. unfold finish in E.
    destruct (if p_inside p then _ else _); [|discriminate]. cbn [bind] in E. destruct (evaluate_trial _ _ _ _ _ _ _); [|discriminate]. cbn [bind] in E.
    destruct cb; [|discriminate]. injection E as <-. left; eauto.
  - destruct (get_initial_directory p d) as [[x c]|]; left; eauto.
  - destruct (save_checkpoint p d n v m o); left; eauto.
Qed.

Definition disk_ok (p : proc) : Prop :=
  (forall r, wf_repo r (repo_of p r)) /\ (forall r t, In t (repo_of p r) -> ~ occurs "/"%char (t_id t)).
Definition proc_ok (root : string) (p : proc) : Prop :=
  disk_ok p /\ one_run root p /\ (p_current p <> None -> p_state p = Some root).

Definition fine (e : event) : Prop :=
  (forall a b, e <> Move a b) /\ (forall r id prev cfg time w, e = Sample r id prev cfg time w -> ~ occurs "/"%char id).

Lemma disk_event p e : fine e -> disk_ok p -> disk_ok (do_event p e).
Proof.
  intros [NM PI] [W I]. split.
  - intros r. now apply do_event_repos.
  - intros r t H. destruct (ids_event p e r t NM H) as [(t0 & H1 & H2)|(prev & cfg & time & w & E)].
    + rewrite <- H2. now apply (I r).
    + now apply (PI _ _ _ _ _ _ E).
Qed.

Lemma state_event root p e : (forall r, e = NewRun r -> r = root) -> one_run root p ->
  (p_current p <> None -> p_state p = Some root) ->
  p_current (do_event p e) <> None -> p_state (do_event p e) = Some root.
Proof.
  intros NR O S.
  destruct e as [|r|r id prev cfg time w|r id u|a b|d|f d|id|o tb drv du te cb| |d|d n v m o]; cbn [Chain_model.do_event]; auto.
  - now intros [].
  - cbn. intros _. f_equal. now apply NR.
  - destruct (new_trial r (repo_of p r) id prev cfg time w); auto.
  - destruct (enter p id) as [p'|] eqn:E; [|exact S]. intros _. unfold enter, get_workers_neps_state in E.
    destruct (p_state p) as [r|] eqn:PS; [|discriminate]. cbn [bind] in E.
    destruct (get_trial_by_id (repo_of p r) id); [|discriminate]. cbn [bind] in E.
    destruct (p_current p); [discriminate|]. injection E as <-. cbn. f_equal. now apply (proj1 O).
  - destruct (finish pyfloat p o tb drv du te cb) as [p'|] eqn:E; [|exact S]. unfold finish in E.
    destruct (if p_inside p then _ else _); [|discriminate]. cbn [bind] in E. destruct (evaluate_trial _ _ _ _ _ _ _); [|discriminate]. cbn [bind] in E.
    destruct cb; [|discriminate]. injection E as <-. cbn. now intros [].
  - destruct (get_initial_directory p d) as [[x c]|]; auto.
  - destruct (save_checkpoint p d n v m o); auto.
Qed.

Lemma proc_event root p e : fine e -> (forall r, e = NewRun r -> r = root) -> proc_ok root p -> proc_ok root (do_event p e).
Proof.
  intros F NR (D & O & S). split; [now apply disk_event|]. split.
  - apply one_run_event; auto; [apply F|apply D].
  - now apply state_event.
Qed.

(** ** The logger *)
Definition summary_dir (root : string) : path := removelast (to_path root) ++ ["summary"].
Definition at_initial (root : string) (p : proc) (d : path) : Prop :=
  exists c t u, p_current p = Some c /\ In t (repo_of p root) /\ core t = core c /\ first_of (repo_of p root) t u /\
    d = to_path (m_location (t_meta u)) ++ ["tbevents"].
Definition log_ok (root : string) (w : tworld) : Prop :=
  (forall d, lg_writer (w_log w) = Some d -> lg_registered (w_log w) = true /\ In d (w_tb w) /\ at_initial root (w_proc w) d) /\
  (lg_registered (w_log w) = true -> lg_root (w_log w) = Some root) /\
  (forall d, lg_summary (w_log w) = Some d -> d = summary_dir root).
Definition inv (root : string) (w : tworld) : Prop := proc_ok root (w_proc w) /\ log_ok root w.

Lemma at_initial_event root p e d : (forall a b, e <> Move a b) -> at_initial root p d ->
  p_current (do_event p e) = p_current p -> at_initial root (do_event p e) d.
Proof.
  intros NM (c & t & u & C & T & K & F & D) E. pose proof (proj2 (do_event_repos pyfloat p e NM root)) as G.
  destruct (grows_core _ _ t G T) as (t' & T1 & T2). destruct (first_grows _ _ t u F G t' T1 T2) as (u' & U1 & U2).
  exists c, t', u'. rewrite E. repeat split; auto; [congruence|]. apply core_inj in U2 as (_ & U2 & _). now rewrite U2.
Qed.

(** What an evaluation in progress depends on *)
Lemma current_event p e c : p_current p = Some c -> e <> NewProcess ->
  p_current (do_event p e) = Some c \/ exists o tb drv du te cb p', e = Finish o tb drv du te cb /\ finish pyfloat p o tb drv du te cb = Ok p'.
Proof.
  intros C NP.
  destruct e as [|r|r id prev cfg time w|r id u|a b|d|f d|id|o tb drv du te cb| |d|d n v m o]; cbn [Chain_model.do_event]; auto.
  - congruence.
  - destruct (new_trial r (repo_of p r) id prev cfg time w); auto.
  - unfold enter. destruct (get_workers_neps_state p); [|auto]. cbn [bind]. destruct (get_trial_by_id _ _); [|auto]. cbn [bind].
    rewrite C. auto.
  - destruct (finish pyfloat p o tb drv du te cb) as [p'|] eqn:E; [|auto]. right. eauto 12.
  - destruct (get_initial_directory p d) as [[x y]|]; auto.
  - destruct (save_checkpoint p d n v m o); auto.
Qed.

(** A step that leaves the logger alone *)
Lemma log_ok_event root w e : (forall a b, e <> Move a b) -> log_ok root w ->
  (lg_writer (w_log w) <> None -> p_current (do_event (w_proc w) e) = p_current (w_proc w)) ->
  log_ok root (with_proc w (do_event (w_proc w) e)).
Proof.
  intros NM (A & B & C) K. split; [|split; [exact B|exact C]]. intros d H. destruct (A d H) as (A1 & A2 & A3).
  split; [exact A1|]. split; [exact A2|]. apply at_initial_event; auto. apply K. cbn in H. congruence.
Qed.

(** *** One call *)
Definition same_but_cache (p p' : proc) : Prop :=
  p_repos p' = p_repos p /\ p_dirs p' = p_dirs p /\ p_files p' = p_files p /\ p_state p' = p_state p /\
  p_current p' = p_current p /\ p_inside p' = p_inside p.
Lemma same_refl p : same_but_cache p p.
Proof. repeat split. Qed.
Lemma same_trans p q r : same_but_cache p q -> same_but_cache q r -> same_but_cache p r.
Proof. unfold same_but_cache. intuition congruence. Qed.

Definition gentle (f : act) : Prop := forall w, same_but_cache (w_proc w) (w_proc (fst (f w))) /\
  lg_disabled (w_log (fst (f w))) = lg_disabled (w_log w) /\ lg_incumbent (w_log (fst (f w))) = lg_incumbent (w_log w) /\
  lg_summary (w_log (fst (f w))) = lg_summary (w_log w).
Lemma gentle_andthen f g : gentle f -> gentle g -> gentle (andthen f g).
Proof.
  intros F G w. unfold andthen. specialize (F w). destruct (f w) as [w1 [?|?]]; cbn [fst] in *; [|exact F].
  specialize (G w1). destruct F as (F1 & F2 & F3 & F4), G as (G1 & G2 & G3 & G4).
  split; [now apply (same_trans _ (w_proc w1))|]. split; [congruence|]. split; congruence.
Qed.
Ltac gentle_leaf := repeat match goal with |- context [match ?x with _ => _ end] => destruct x end;
  cbn; repeat split.
Lemma gentle_nothing : gentle nothing.
Proof. intros w. cbn. split; [apply same_refl|auto]. Qed.
Lemma gentle_initiate : gentle initiate.
Proof. intros w. unfold initiate. gentle_leaf. Qed.
Lemma gentle_ensure : gentle ensure_writer.
Proof. intros w. unfold ensure_writer, initialize_writers. gentle_leaf. Qed.
Lemma gentle_scalar tag v : gentle (write_scalar tag v).
Proof. apply gentle_andthen; [apply gentle_ensure|]. intros w. gentle_leaf. Qed.
Lemma gentle_hparams : gentle write_hparams.
Proof. apply gentle_andthen; [apply gentle_ensure|]. intros w. gentle_leaf. Qed.
Lemma gentle_image tag n : gentle (write_image tag n).
Proof. apply gentle_andthen; [apply gentle_ensure|]. intros w. gentle_leaf. Qed.
Lemma gentle_extra kx : gentle (write_extra kx).
Proof.
  unfold write_extra. destruct (snd kx); [apply gentle_scalar|apply gentle_image|apply gentle_nothing].
Qed.

(** The writing part of a call *)
Definition extras (l : list (string * extra)) : act := fold_right (fun kx => andthen (write_extra kx)) nothing l.
Definition body (a : log_args) : act :=
  andthen (if la_scalar a then write_scalar "Loss" (la_loss a) else nothing)
    (andthen (if la_hparam a then write_hparams else nothing) (extras (la_extra a))).
Lemma gentle_extras l : gentle (extras l).
Proof. induction l as [|kx l IH]; [apply gentle_nothing|]. apply gentle_andthen; [apply gentle_extra|exact IH]. Qed.
Lemma gentle_body a : gentle (body a).
Proof.
  apply gentle_andthen; [destruct (la_scalar a); [apply gentle_scalar|apply gentle_nothing]|].
  apply gentle_andthen; [destruct (la_hparam a); [apply gentle_hparams|apply gentle_nothing]|]. apply gentle_extras.
Qed.

Definition noted (a : log_args) (w : tworld) : tworld :=
  let l := w_log w in
  set_log w (mkLogger (lg_id l) (lg_config l) (lg_work l) (lg_root l) (lg_prev l) (lg_disabled l)
               (Some (la_loss a)) (Some (la_epoch a)) (la_incumbent a) (lg_writer l) (lg_summary l) (lg_registered l)).
Lemma log_is a w : log a w = if lg_disabled (w_log w) then (w, Ok tt) else andthen initiate (body a) (noted a w).
Proof. reflexivity. Qed.

Lemma log_same a w : same_but_cache (w_proc w) (w_proc (fst (log a w))).
Proof.
  rewrite log_is. destruct (lg_disabled (w_log w)); [apply same_refl|].
  exact (proj1 (gentle_andthen initiate (body a) gentle_initiate (gentle_body a) (noted a w))).
Qed.
Lemma log_flags a w : lg_disabled (w_log (fst (log a w))) = lg_disabled (w_log w) /\
  lg_summary (w_log (fst (log a w))) = lg_summary (w_log w) /\
  lg_incumbent (w_log (fst (log a w))) = if lg_disabled (w_log w) then lg_incumbent (w_log w) else la_incumbent a.
Proof.
  rewrite log_is. destruct (lg_disabled (w_log w)) eqn:D; [auto|].
  destruct (gentle_andthen initiate (body a) gentle_initiate (gentle_body a) (noted a w)) as (_ & G2 & G3 & G4). cbn in G2, G3, G4. auto.
  rewrite G2, G3, G4. auto.
Qed.

(** *** In the middle of a call *)
Section Call.
Variables (root : string) (c : trial) (a : log_args).
(** After [initiate] *)
Definition set_up (w : tworld) : Prop :=
  inv root w /\ p_current (w_proc w) = Some c /\ p_state (w_proc w) = Some root /\ lg_registered (w_log w) = true /\
  lg_work (w_log w) = Some (m_location (t_meta c)) /\ lg_prev (w_log w) = m_previous_trial_location (t_meta c) /\
  lg_config (w_log w) = Some (t_config c) /\ lg_epoch (w_log w) = Some (la_epoch a) /\ lg_loss (w_log w) = Some (la_loss a).

Lemma set_up_add w d e : set_up w -> set_up (add_event w d e).
Proof. intros ((P & L) & H). exact (conj (conj P L) H). Qed.

(** Where the records of the current trial belong *)
Lemma initial_there w : proc_ok root (w_proc w) -> p_current (w_proc w) = Some c -> p_state (w_proc w) = Some root ->
  exists t u x, In t (repo_of (w_proc w) root) /\ core t = core c /\ first_of (repo_of (w_proc w) root) t u /\
    get_initial_directory (w_proc w) (Some (m_location (t_meta c))) = Ok (to_path (m_location (t_meta u)), x) /\
    with_cache (w_proc w) x = do_event (w_proc w) (Lookup (Some (m_location (t_meta c)))).
Proof.
  intros ((W & I) & O & _) C S. destruct (proj1 (proj2 O) c C) as (t & T1 & T2).
  pose proof (core_inj _ _ T2) as (T3 & T4 & _).
  assert (K : asked_trial (w_proc w) root (Some (m_location (t_meta c))) = Ok t).
  { cbn. rewrite <- T4, (wf_location root _ t (W root) T1), location_name by (now apply (I root)).
    apply get_by_id_in; auto. now apply (wf_ids root). }
  destruct (lookup_result root (w_proc w) _ t t (W root) O S K T1 eq_refl) as (u & U1 & _ & _ & U).
  assert (X : exists x, get_initial_directory (w_proc w) (Some (m_location (t_meta c))) = Ok (to_path (m_location (t_meta u)), x)).
  { destruct U as [U|U]; eauto. }
  destruct X as [x X]. exists t, u, x. split; [exact T1|]. split; [exact T2|]. split; [exact U1|]. split; [exact X|].
  cbn [Chain_model.do_event]. now rewrite X.
Qed.

Lemma dir_name w u : proc_ok root (w_proc w) -> In u (repo_of (w_proc w) root) ->
  path_name (to_path (m_location (t_meta u))) = ("config_" ++ t_id u)%string.
Proof.
  intros ((W & I) & _) U. rewrite (wf_location root _ u (W root) U).
  change ("/config_" ++ t_id u)%string with ("/" ++ ("config_" ++ t_id u))%string.
  rewrite to_path_below by (apply config_simple; now apply (I root)). unfold path_name. now rewrite last_last.
Qed.

Lemma ensure_set_up w : set_up w -> exists t u,
  In t (repo_of (w_proc w) root) /\ core t = core c /\ first_of (repo_of (w_proc w) root) t u /\
  let d := to_path (m_location (t_meta u)) ++ ["tbevents"] in
  let (w', r) := ensure_writer w in
  set_up w' /\ w_events w' = w_events w /\
  match lg_writer (w_log w) with
  | Some d' => d' = d /\ w' = w /\ r = Ok tt
  | None =>
      if match m_previous_trial_id (t_meta c) with None => true | Some _ => existsb (path_eqb d) (w_tb w) end
      then r = Ok tt /\ lg_writer (w_log w') = Some d /\ lg_id (w_log w') = Some ("config_" ++ t_id u)%string
      else r = Err FileNotFoundError /\ lg_writer (w_log w') = None
  end.
Proof.
  intros SU. pose proof SU as ((P & L) & C & S & R & K1 & K2 & K3 & K4 & K5).
  unfold ensure_writer. destruct (lg_writer (w_log w)) as [d'|] eqn:E.
  - destruct (proj1 L d' E) as (_ & _ & c' & t & u & C' & T & Q & F & D). assert (c' = c) by congruence. subst c'.
    exists t, u. split; [exact T|]. split; [exact Q|]. split; [exact F|]. cbv zeta. auto.
  - destruct (initial_there w P C S) as (t & u & x & T & Q & F & G & X). exists t, u.
    split; [exact T|]. split; [exact Q|]. split; [exact F|]. cbv zeta.
    pose proof (dir_name w u P (first_in _ _ _ F)) as DN.
    pose proof (wf_prev root _ t (proj1 (proj1 P) root) T) as WP. pose proof (core_inj _ _ Q) as (Q1 & Q2 & Q3 & Q4).
    unfold initialize_writers. rewrite K1, K2.
    destruct (m_previous_trial_location (t_meta c)) as [pl|] eqn:PL.
    + destruct WP as [[_ WP]|(q & _ & WP & _)]; [congruence|]. rewrite <- Q3, WP, G.
      assert (P' : proc_ok root (with_cache (w_proc w) x)).
      { rewrite X. apply proc_event; [split; discriminate|discriminate|exact P]. }
      assert (AT : forall d, d = to_path (m_location (t_meta u)) ++ ["tbevents"] -> at_initial root (with_cache (w_proc w) x) d).
      { intros d ->. exists c, t, u. auto. }
      destruct (existsb _ (w_tb w)) eqn:EX; cbv beta iota.
      * split; [|split; [reflexivity|]]; [|cbn; split; [reflexivity|]; split; [reflexivity|now rewrite DN]].
        split; [split; [exact P'|]|repeat split; auto; cbn; congruence].
        split; [|exact (proj2 L)]. cbn. intros d [= <-]. split; [exact R|]. split; [|now apply AT].
        apply existsb_exists in EX as (y & Y1 & Y2). apply path_eqb_eq in Y2. now subst y.
      * split; [|split; [reflexivity|]]; [|cbn; rewrite E; auto].
        split; [split; [exact P'|]|repeat split; auto; cbn; congruence].
        split; [|exact (proj2 L)]. cbn. rewrite E. discriminate.
    + destruct WP as [[WP _]|(q & _ & _ & WP)]; [|congruence]. rewrite <- Q3, WP.
      pose proof (first_self _ _ _ F WP) as ->. cbv beta iota. rewrite <- Q2.
      split; [|split; [reflexivity|]]; [|cbn; split; [reflexivity|]; split; [reflexivity|now rewrite DN]].
      split; [split; [exact P|]|repeat split; auto; cbn; congruence].
      * split; [|exact (proj2 L)]. cbn. intros d [= <-]. split; [exact R|]. split; [now left|].
        exists c, t, t. auto.
Qed.

Lemma asks_dec x : {asks x} + {~ asks x}.
Proof.
  unfold asks. destruct (la_scalar x); [left; auto|]. destruct (la_hparam x); [left; auto|].
  induction (la_extra x) as [|[k y] l IH]; [right; intros [H|[H|(k & y & [] & _)]]; discriminate|].
  assert (D : {y = XOther} + {y <> XOther}) by (destruct y; [right|right|left]; congruence).
  destruct D as [->|D]; [|left; right; right; exists k, y; split; [now left|exact D]].
  destruct IH as [IH|IH]; [left|right].
  - destruct IH as [IH|[IH|(k' & y & I & N)]]; [auto|auto|]. right; right. exists k', y. split; [now right|exact N].
  - intros [H|[H|(k' & y & [[= <- <-]|I] & N)]]; try discriminate; [congruence|]. apply IH. right; right. eauto.
Qed.

(** *** Writing *)
Definition wrote (w : tworld) (d : path) (l : list entry) : tworld :=
  mkTW (w_proc w) (w_log w) (w_tb w) (w_events w ++ map (pair d) l).
Lemma wrote_nil w d : wrote w d [] = w.
Proof. destruct w. unfold wrote. cbn. now rewrite app_nil_r. Qed.
Lemma wrote_wrote w d l l' : wrote (wrote w d l) d l' = wrote w d (l ++ l').
Proof. unfold wrote. cbn. now rewrite map_app, app_assoc. Qed.

Definition ready (pre : string) (d : path) (w : tworld) : Prop :=
  lg_writer (w_log w) = Some d /\ lg_id (w_log w) = Some pre /\ lg_config (w_log w) = Some (t_config c) /\
  lg_epoch (w_log w) = Some (la_epoch a) /\ lg_loss (w_log w) = Some (la_loss a).

Lemma ready_ensure pre d w f : ready pre d w -> andthen ensure_writer f w = f w.
Proof. intros (R & _). unfold andthen, ensure_writer. now rewrite R. Qed.

Lemma ready_scalar pre d w tag v : ready pre d w ->
  write_scalar tag v w = (wrote w d [Scalar (pre ++ "/" ++ tag)%string v (la_epoch a)], Ok tt).
Proof.
  intros R. unfold write_scalar. rewrite (ready_ensure pre d) by exact R. destruct R as (R1 & R2 & R3 & R4 & R5).
  cbv beta. rewrite R1, R4. unfold tag_of. now rewrite R2.
Qed.
Lemma ready_hparams pre d w : ready pre d w ->
  write_hparams w = (wrote w d [Hparams (t_config c) (la_loss a) (la_epoch a)], Ok tt).
Proof.
  intros R. unfold write_hparams. rewrite (ready_ensure pre d) by exact R. destruct R as (R1 & R2 & R3 & R4 & R5).
  cbv beta. now rewrite R1, R3, R4, R5.
Qed.
Lemma ready_extra pre d w kx : ready pre d w -> (forall n, snd kx = XImage n -> n <> 0%Z) ->
  write_extra kx w = (wrote w d (extra_entries pre (la_epoch a) kx), Ok tt).
Proof.
  intros R N. destruct kx as [k [v|n|]]; unfold write_extra, extra_entries; cbn [snd fst].
  - now apply ready_scalar.
  - unfold write_image. rewrite (ready_ensure pre d) by exact R. destruct R as (R1 & R2 & R3 & R4 & R5).
    cbv beta. rewrite R1, R4. specialize (N n eq_refl). apply Z.eqb_neq in N. rewrite N.
    destruct (Z.ltb_spec (la_epoch a) 0), (Z.leb_spec 0 (la_epoch a)); try lia; cbn [andb].
    + now rewrite wrote_nil.
    + destruct (la_epoch a mod n =? 0)%Z; [|now rewrite wrote_nil]. unfold tag_of. now rewrite R2.
  - cbn. now rewrite wrote_nil.
Qed.
Lemma ready_extras pre d l : forall w, ready pre d w -> (forall k n, In (k, XImage n) l -> n <> 0%Z) ->
  extras l w = (wrote w d (flat_map (extra_entries pre (la_epoch a)) l), Ok tt).
Proof.
  induction l as [|kx l IH]; intros w R N; [cbn; now rewrite wrote_nil|].
  cbn [extras fold_right]. change (fold_right (fun kx0 => andthen (write_extra kx0)) nothing l) with (extras l).
  unfold andthen at 1. rewrite (ready_extra pre d) by (try exact R; destruct kx as [k x]; intros n E; cbn in E; subst x; apply (N k); now left).
  rewrite IH by (try exact R; intros k n H; apply (N k); now right). now rewrite wrote_wrote.
Qed.
Lemma ready_body pre d w : ready pre d w -> good_counters a ->
  body a w = (wrote w d (entries pre (t_config c) a), Ok tt).
Proof.
  intros R N. unfold body, entries.
  assert (E1 : (if la_scalar a then write_scalar "Loss" (la_loss a) else nothing) w =
    (wrote w d (if la_scalar a then [Scalar (pre ++ "/Loss")%string (la_loss a) (la_epoch a)] else []), Ok tt)).
  { destruct (la_scalar a); [now apply (ready_scalar pre d)|now rewrite wrote_nil]. }
  unfold andthen at 1. rewrite E1. set (w1 := wrote w d _).
  assert (R1 : ready pre d w1) by exact R.
  assert (E2 : (if la_hparam a then write_hparams else nothing) w1 =
    (wrote w1 d (if la_hparam a then [Hparams (t_config c) (la_loss a) (la_epoch a)] else []), Ok tt)).
  { destruct (la_hparam a); [now apply (ready_hparams pre d)|now rewrite wrote_nil]. }
  unfold andthen at 1. rewrite E2. rewrite (ready_extras pre d) by (try exact R; exact N).
  unfold w1. now rewrite !wrote_wrote.
Qed.

(** Whoever writes first makes the writer *)
Definition first_ensures (f : act) (w : tworld) : Prop := f w = andthen ensure_writer f w.
Lemma ensure_twice w w1 : set_up w -> ensure_writer w = (w1, Ok tt) -> ensure_writer w1 = (w1, Ok tt).
Proof.
  intros SU E. destruct (ensure_set_up w SU) as (t & u & _ & _ & _ & H). cbv zeta in H. rewrite E in H.
  destruct H as (_ & _ & H). unfold ensure_writer. destruct (lg_writer (w_log w)) as [d|] eqn:W.
  - destruct H as (_ & -> & _). now rewrite W.
  - destruct (match m_previous_trial_id (t_meta c) with None => true | Some _ => _ end).
    + destruct H as (_ & -> & _). reflexivity.
    + destruct H as [H _]. discriminate.
Qed.
Lemma ensured f w : set_up w -> first_ensures (andthen ensure_writer f) w.
Proof.
  intros SU. unfold first_ensures, andthen. destruct (ensure_writer w) as [w1 [[]|e]] eqn:E; [|reflexivity].
  now rewrite (ensure_twice w w1 SU E).
Qed.
Lemma first_then f g w : first_ensures f w -> first_ensures (andthen f g) w.
Proof.
  unfold first_ensures, andthen. intros ->. destruct (ensure_writer w) as [w1 [[]|e]]; reflexivity.
Qed.
Lemma first_after f g w : f w = (w, Ok tt) -> first_ensures g w ->
  (forall w1, f w1 = (w1, Ok tt)) -> first_ensures (andthen f g) w.
Proof.
  unfold first_ensures, andthen. intros E G A. rewrite E, G. destruct (ensure_writer w) as [w1 [[]|e]]; [|reflexivity].
  now rewrite A.
Qed.
Lemma first_extras l w : set_up w -> (exists k x, In (k, x) l /\ x <> XOther) -> first_ensures (extras l) w.
Proof.
  intros SU. induction l as [|[k x] l IH]; [intros (k & x & [] & _)|]. intros (k' & x' & H & N).
  destruct x as [v|n|].
  - apply first_then. now apply ensured.
  - apply first_then. now apply ensured.
  - apply first_after; [reflexivity| |reflexivity]. apply IH. destruct H as [[= _ <-]|H]; [congruence|eauto].
Qed.
Lemma first_body w : set_up w -> asks a -> first_ensures (body a) w.
Proof.
  intros SU A. unfold body. destruct (la_scalar a) eqn:E1; [apply first_then; now apply ensured|].
  apply first_after; [reflexivity| |reflexivity].
  destruct (la_hparam a) eqn:E2; [apply first_then; now apply ensured|].
  apply first_after; [reflexivity| |reflexivity]. apply first_extras; [exact SU|].
  destruct A as [A|[A|A]]; [congruence|congruence|exact A].
Qed.
Lemma body_nothing w : ~ asks a -> body a w = (w, Ok tt).
Proof.
  intros N. unfold body. destruct (la_scalar a) eqn:E1; [destruct N; left; exact E1|].
  destruct (la_hparam a) eqn:E2; [destruct N; right; left; exact E2|].
  unfold andthen, nothing.
  assert (H : forall k x, In (k, x) (la_extra a) -> x = XOther).
  { intros k x H. destruct x; auto; destruct N; right; right; eexists _, _; (split; [exact H|discriminate]). }
  revert H. generalize (la_extra a). induction l as [|[k x] l IH]; intros H; [reflexivity|].
  cbn [extras fold_right]. change (fold_right (fun kx => andthen (write_extra kx)) nothing l) with (extras l).
  unfold andthen. rewrite (H k x (or_introl eq_refl)). cbn. apply IH. intros k' x' I. apply (H k'). now right.
Qed.
Lemma entries_nothing pre cfg : ~ asks a -> entries pre cfg a = [].
Proof.
  intros N. unfold entries. destruct (la_scalar a) eqn:E1; [destruct N; left; exact E1|].
  destruct (la_hparam a) eqn:E2; [destruct N; right; left; exact E2|]. cbn [app].
  assert (H : forall k x, In (k, x) (la_extra a) -> x = XOther).
  { intros k x H. destruct x; auto; destruct N; right; right; eexists _, _; (split; [exact H|discriminate]). }
  revert H. generalize (la_extra a). induction l as [|[k x] l IH]; intros H; [reflexivity|].
  cbn [flat_map]. rewrite IH by (intros k' x' I; apply (H k'); now right). rewrite (H k x (or_introl eq_refl)). reflexivity.
Qed.

(** The body keeps the invariants *)
Definition keeps (f : act) : Prop := forall w, set_up w -> set_up (fst (f w)).
Lemma keeps_andthen f g : keeps f -> keeps g -> keeps (andthen f g).
Proof.
  intros F G w SU. unfold andthen. specialize (F w SU). destruct (f w) as [w1 [?|?]]; [now apply G|exact F].
Qed.
Lemma keeps_nothing : keeps nothing.
Proof. intros w SU. exact SU. Qed.
Lemma keeps_ensure : keeps ensure_writer.
Proof.
  intros w SU. destruct (ensure_set_up w SU) as (t & u & _ & _ & _ & H). cbv zeta in H.
  destruct (ensure_writer w) as [w' r]. apply H.
Qed.
Lemma keeps_leaf (f : act) : (forall w, fst (f w) = w \/ exists d e, fst (f w) = add_event w d e) -> keeps f.
Proof. intros H w SU. destruct (H w) as [->|(d & e & ->)]; [exact SU|now apply set_up_add]. Qed.
Lemma keeps_extra kx : keeps (write_extra kx).
Proof.
  destruct kx as [k [v|n|]]; [| |apply keeps_nothing]; (apply keeps_andthen; [apply keeps_ensure|]); apply keeps_leaf; intros w.
  - destruct (lg_writer (w_log w)), (lg_epoch (w_log w)); cbn [fst]; eauto.
  - destruct (lg_epoch (w_log w)) as [z|]; [|auto]. destruct (z <? 0)%Z; [auto|]. destruct (n =? 0)%Z; [auto|].
    destruct (z mod n =? 0)%Z; [|auto]. destruct (lg_writer (w_log w)); cbn [fst]; eauto.
Qed.
Lemma keeps_body : keeps (body a).
Proof.
  unfold body. apply keeps_andthen; [destruct (la_scalar a); [apply (keeps_extra ("Loss", XScalar (la_loss a)))|apply keeps_nothing]|].
  apply keeps_andthen.
  - destruct (la_hparam a); [|apply keeps_nothing]. apply keeps_andthen; [apply keeps_ensure|]. apply keeps_leaf. intros w.
    destruct (lg_writer (w_log w)); [|auto]. destruct (lg_config (w_log w)), (lg_epoch (w_log w)), (lg_loss (w_log w)); cbn [fst]; eauto.
  - induction (la_extra a) as [|kx l IH]; [apply keeps_nothing|]. apply keeps_andthen; [apply keeps_extra|exact IH].
Qed.

(** From the beginning of the call *)
Definition after_initiate (w : tworld) : tworld := fst (initiate (noted a w)).
Lemma initiate_set_up w : inv root w -> p_current (w_proc w) = Some c ->
  initiate (noted a w) = (after_initiate w, Ok tt) /\ set_up (after_initiate w) /\
  lg_writer (w_log (after_initiate w)) = lg_writer (w_log w) /\ lg_id (w_log (after_initiate w)) = Some (t_id c) /\
  w_events (after_initiate w) = w_events w /\ w_tb (after_initiate w) = w_tb w /\ w_proc (after_initiate w) = w_proc w.
Proof.
  intros (P & L) C. assert (S : p_state (w_proc w) = Some root) by (apply P; congruence).
  assert (E : initiate (noted a w) = (after_initiate w, Ok tt)).
  { unfold after_initiate, initiate, get_in_progress_trial, get_workers_neps_state. cbn [noted w_proc set_log]. now rewrite C, S. }
  split; [exact E|]. unfold after_initiate in *. unfold initiate, get_in_progress_trial, get_workers_neps_state in *.
  cbn [noted w_proc set_log] in *. rewrite C, S in *. cbn [fst w_log w_events w_tb w_proc lg_writer lg_id set_log].
  split; [|auto 6]. split; [|repeat split; auto]. split; [exact P|]. destruct L as (A & B & D).
  split; [|split; [reflexivity|exact D]]. cbn. intros d H. destruct (A d H) as (A1 & A2 & A3). auto.
Qed.

Lemma log_call_p w : inv root w -> p_current (w_proc w) = Some c -> lg_disabled (w_log w) = false -> good_counters a ->
  exists t u, In t (repo_of (w_proc w) root) /\ core t = core c /\ first_of (repo_of (w_proc w) root) t u /\
  let d := to_path (m_location (t_meta u)) ++ ["tbevents"] in
  let pre := match lg_writer (w_log w) with Some _ => t_id c | None => ("config_" ++ t_id u)%string end in
  ((~ asks a \/ m_previous_trial_id (t_meta c) = None \/ In d (w_tb w)) ->
     snd (log a w) = Ok tt /\ w_events (fst (log a w)) = w_events w ++ map (pair d) (entries pre (t_config c) a) /\
     (asks a -> lg_writer (w_log (fst (log a w))) = Some d)) /\
  ((asks a /\ m_previous_trial_id (t_meta c) <> None /\ ~ In d (w_tb w)) ->
     snd (log a w) = Err FileNotFoundError /\ w_events (fst (log a w)) = w_events w).
Proof.
  intros IV C D N. destruct (initiate_set_up w IV C) as (E & SU & IW & IID & IE & IT & IP).
  rewrite log_is, D. unfold andthen at 1 2 3 4 5. rewrite E.
  destruct (ensure_set_up _ SU) as (t & u & T & Q & F & H). rewrite IP in T, F. exists t, u.
  split; [exact T|]. split; [exact Q|]. split; [exact F|]. cbv zeta in *. rewrite IW, IT in H.
  set (d := to_path (m_location (t_meta u)) ++ ["tbevents"]) in *. set (w1 := after_initiate w) in *.
  assert (INV : existsb (path_eqb d) (w_tb w) = true <-> In d (w_tb w)).
  { rewrite existsb_exists. split; [intros (y & Y1 & Y2); apply path_eqb_eq in Y2; now subst y|].
    intros Y. exists d. split; [exact Y|apply path_eqb_refl]. }
  destruct (asks_dec a) as [A|A].
  2: { rewrite (body_nothing _ A), (entries_nothing _ _ A). cbn [fst snd]. rewrite app_nil_r, IE. repeat split; tauto. }
  rewrite (first_body _ SU A). unfold andthen. destruct (ensure_writer w1) as [w2 r] eqn:EW. destruct H as (SU2 & EV & H).
  destruct SU2 as (IV2 & _ & _ & _ & _ & _ & K3 & K4 & K5).
  destruct (lg_writer (w_log w)) as [d'|] eqn:LW.
  - destruct H as (-> & -> & ->). rewrite (ready_body (t_id c) d) by (try exact N; repeat split; auto).
    cbn [fst snd wrote w_events w_log]. rewrite IE. split; [intros _; auto|].
    intros (_ & _ & X). destruct X. destruct IV as (_ & L). now apply (proj1 L).
  - destruct (match m_previous_trial_id (t_meta c) with None => true | Some _ => _ end) eqn:B.
    + destruct H as (-> & LW2 & LI2). rewrite (ready_body ("config_" ++ t_id u) d) by (try exact N; repeat split; auto).
      cbn [fst snd wrote w_events w_log]. rewrite EV, IE. split; [intros _; auto|].
      intros (_ & X & Y). destruct (m_previous_trial_id (t_meta c)); [|congruence]. apply INV in B. contradiction.
    + destruct H as (-> & LW2). cbn [fst snd]. rewrite EV, IE. split; [|auto].
      intros X. exfalso. destruct (m_previous_trial_id (t_meta c)); [|discriminate].
      destruct X as [X|[X|X]]; [contradiction|discriminate|]. apply INV in X. congruence.
Qed.
End Call.

(** ** Histories *)
Definition tfine (e : tevent) : Prop := forall x, e = TChain x -> fine x.

Lemma end_proc w : w_proc (fst (end_of_config pyfloat w)) = w_proc w.
Proof.
  unfold end_of_config. destruct (lg_incumbent (w_log w)); [|reflexivity]. unfold track_incumbent. cbn [set_log w_log lg_root w_proc].
  destruct (lg_root (w_log w)); [|reflexivity]. destruct (get_summary _ _); reflexivity.
Qed.
Lemma end_log root w : log_ok root w -> lg_registered (w_log w) = true ->
  log_ok root (fst (end_of_config pyfloat w)) /\ lg_writer (w_log (fst (end_of_config pyfloat w))) = None.
Proof.
  intros (A & B & C) R. unfold end_of_config. destruct (lg_incumbent (w_log w)).
  - unfold track_incumbent. cbn [set_log w_log lg_root w_proc lg_summary]. rewrite (B R). cbv beta iota.
    destruct (get_summary _ _) as [x|]; cbn [fst]; (split; [|reflexivity]); (split; [discriminate|]); (split; [intros _; first [reflexivity|exact (B R)]|]); [|exact C].
    cbn. intros d [= <-]. destruct (lg_summary (w_log w)) as [d|]; [now apply C|reflexivity].
  - split; [|reflexivity]. split; [discriminate|]. split; [exact B|exact C].
Qed.
Lemma finish_err p o tb drv du te cb e : finish pyfloat p o tb drv du te true = Err e ->
  exists e', finish pyfloat p o tb drv du te cb = Err e'.
Proof.
  unfold finish. destruct (if p_inside p then _ else _); cbn [bind]; [|eauto].
  destruct (evaluate_trial _ _ _ _ _ _ _); cbn [bind]; [discriminate|eauto].
Qed.

(** The steps other than a new process, the end of an evaluation, and a call *)
Definition ordinary (e : event) : Prop :=
  e <> NewProcess /\ forall o tb drv du te cb, e <> Finish o tb drv du te cb.
Lemma ordinary_step w e : ordinary e -> do_tevent w (TChain e) = with_proc w (do_event (w_proc w) e).
Proof.
  intros [A B]. destruct e; try reflexivity; [congruence|]. now destruct (B o tb drv duration time_end callbacks).
Qed.
Lemma ordinary_cases e : e = NewProcess \/ (exists o tb drv du te cb, e = Finish o tb drv du te cb) \/ ordinary e.
Proof. destruct e; auto; try (right; right; split; discriminate). right; left; eauto 10. Qed.

Lemma ordinary_current p e c : ordinary e -> p_current p = Some c -> p_current (do_event p e) = Some c.
Proof.
  intros [A B] C. destruct (current_event p e c C A) as [H|(o & tb & drv & du & te & cb & p' & H & _)]; [exact H|].
  now destruct (B o tb drv du te cb).
Qed.

Lemma proc_step w e : exists p', w_proc (do_tevent w e) = p' /\
  ((p' = w_proc w) \/ (exists x, (e = TChain x \/ exists o tb drv du te cb cb', e = TChain (Finish o tb drv du te cb) /\ x = Finish o tb drv du te cb') /\
     p' = do_event (w_proc w) x) \/ same_but_cache (w_proc w) p').
Proof.
  eexists. split; [reflexivity|]. destruct e as [e|a| | |d]; [|right; right; apply log_same|now left|now left|now left].
  right; left. destruct (ordinary_cases e) as [->|[(o & tb & drv & du & te & cb & ->)|O]].
  - exists NewProcess. split; [auto|reflexivity].
  - cbn [Tb_model.do_tevent]. destruct (finish pyfloat (w_proc w) o tb drv du te true).
    + destruct (lg_registered (w_log w)).
      * destruct (end_of_config pyfloat w) as [w' r]. eexists. split; [right; eauto 10|reflexivity].
      * eexists. split; [left; reflexivity|reflexivity].
    + eexists. split; [left; reflexivity|reflexivity].
  - exists e. split; [auto|]. now rewrite ordinary_step.
Qed.

Lemma same_disk p p' : same_but_cache p p' -> disk_ok p -> disk_ok p'.
Proof. intros (R & _) D. unfold disk_ok, repo_of in *. now rewrite R. Qed.

Lemma fine_finish o tb drv du te cb : fine (Finish o tb drv du te cb).
Proof. split; discriminate. Qed.

Lemma disk_step w e : tfine e -> disk_ok (w_proc w) -> disk_ok (w_proc (do_tevent w e)).
Proof.
  intros F D. destruct (proc_step w e) as (p' & -> & [->|[(x & X & ->)|S]]); [exact D| |now apply (same_disk (w_proc w))].
  apply disk_event; [|exact D]. destruct X as [X|(o & tb & drv & du & te & cb & cb' & _ & ->)]; [now apply F|apply fine_finish].
Qed.

Lemma writer_none root w : inv root w -> p_current (w_proc w) = None -> lg_writer (w_log w) = None.
Proof.
  intros (_ & A & _) C. destruct (lg_writer (w_log w)) as [d|]; [|reflexivity].
  destruct (A d eq_refl) as (_ & _ & c & t & u & H & _). congruence.
Qed.

Lemma inv_step root w e : tfine e -> (forall r, e = TChain (NewRun r) -> r = root) -> inv root w -> inv root (do_tevent w e).
Proof.
  intros F NR (P & L). destruct e as [e|a| | |d].
  - destruct (ordinary_cases e) as [->|[(o & tb & drv & du & te & cb & ->)|O]].
    + split; [cbn; now apply (proc_event root (w_proc w) NewProcess); [split; discriminate|discriminate|]|].
      split; [discriminate|]. split; discriminate.
    + assert (PF : forall cb', proc_ok root (do_event (w_proc w) (Finish o tb drv du te cb'))).
      { intros cb'. apply proc_event; [apply fine_finish|discriminate|exact P]. }
      cbn [Tb_model.do_tevent]. destruct (finish pyfloat (w_proc w) o tb drv du te true) as [p'|x] eqn:E.
      * destruct (lg_registered (w_log w)) eqn:R.
        -- destruct (end_log root w L R) as (L' & N). destruct (end_of_config pyfloat w) as [w' r]. cbn [fst] in L', N.
           split; [apply PF|]. split; [|exact (proj2 L')]. cbn. rewrite N. discriminate.
        -- split; [apply PF|]. apply log_ok_event; [discriminate|exact L|]. intros H. exfalso. apply H.
           destruct (lg_writer (w_log w)) as [d|] eqn:W; [|reflexivity]. destruct (proj1 L d W) as (X & _). congruence.
      * split; [apply PF|]. apply log_ok_event; [discriminate|exact L|]. intros _. cbn [Chain_model.do_event].
        destruct (finish_err _ _ _ _ _ _ cb _ E) as (e' & ->). reflexivity.
    + rewrite (ordinary_step w e O). split.
      * apply proc_event; [now apply F|intros r ->; now apply NR|exact P].
      * apply log_ok_event; [apply (F e eq_refl)|exact L|]. intros H.
        destruct (lg_writer (w_log w)) as [d|] eqn:W; [|congruence].
        destruct (proj1 L d W) as (_ & _ & c & t & u & C & _). rewrite C. now apply ordinary_current.
  - cbn [Tb_model.do_tevent]. rewrite log_is. destruct (lg_disabled (w_log w)); [now split|].
    destruct (p_current (w_proc w)) as [c|] eqn:C.
    + destruct (initiate_set_up root c a w (conj P L) C) as (E & SU & _). unfold andthen. rewrite E.
      exact (proj1 (keeps_body root c a _ SU)).
    + unfold andthen, initiate, get_in_progress_trial. cbn [noted w_proc set_log]. rewrite C. cbn [fst]. now split.
  - now split.
  - now split.
  - split; [exact P|]. destruct L as (A & B). split; [|exact B]. cbn. intros d' H. destruct (A d' H) as (A1 & A2 & A3). auto.
Qed.

Lemma tfine_all e es : tno_move es -> plain_ids es -> In e es -> tfine e.
Proof.
  intros N I H x ->. split.
  - intros a b ->. now apply (N a b).
  - intros r id prev cfg time w ->. now apply (I r id prev cfg time w).
Qed.

Lemma disk_run es : forall w, (forall e, In e es -> tfine e) -> disk_ok (w_proc w) -> disk_ok (w_proc (trun w es)).
Proof.
  induction es as [|e es IH]; intros w F D; [exact D|]. cbn. apply IH; [intros x H; apply F; now right|].
  apply disk_step; [apply F; now left|exact D].
Qed.
Lemma inv_run root es : forall w, (forall e, In e es -> tfine e) -> tonly_runs root es -> inv root w -> inv root (trun w es).
Proof.
  induction es as [|e es IH]; intros w F R I; [exact I|]. cbn. apply IH; [intros x H; apply F; now right|intros r H; apply R; now right|].
  apply inv_step; [apply F; now left|intros r ->; apply R; now left|exact I].
Qed.
Lemma trun_app w es es' : trun w (es ++ es') = trun (trun w es) es'.
Proof. apply fold_left_app. Qed.

(** What one process of one run gives *)

Lemma start_inv root before es : one_process root before es ->
  inv root (trun tstart (before ++ TChain NewProcess :: es)).
Proof.
  intros (N & I & R). rewrite trun_app. cbn [Tb_model.trun fold_left].
  assert (F : forall e, In e (before ++ es) -> tfine e) by (intros e H; now apply (tfine_all e (before ++ es))).
  assert (D : disk_ok (w_proc (trun tstart before))).
  { apply disk_run; [intros e H; apply F, in_or_app; now left|]. split; [intros r; apply wf_start|]. cbn. tauto. }
  apply inv_run; [intros e H; apply F, in_or_app; now right|exact R|].
  split; [|split; [discriminate|split; discriminate]]. split; [exact D|]. split.
  - split; [|split]; cbn; intros; discriminate.
  - cbn. now intros [].
Qed.

(** *** Enabled *)
Lemma disabled_step w e : lg_disabled (w_log (do_tevent w e)) = negb (enabled (negb (lg_disabled (w_log w))) [e]).
Proof.
  destruct e as [e|a| | |d]; cbn [enabled Tb_model.do_tevent]; try (cbn; now rewrite ?negb_involutive).
  - destruct (ordinary_cases e) as [->|[(o & tb & drv & du & te & cb & ->)|O]].
    + reflexivity.
    + rewrite negb_involutive. destruct (finish pyfloat (w_proc w) o tb drv du te true); [|reflexivity].
      destruct (lg_registered (w_log w)); [|reflexivity]. unfold end_of_config. destruct (lg_incumbent (w_log w)); [|reflexivity].
      unfold track_incumbent. cbn [set_log w_log lg_root w_proc]. destruct (lg_root (w_log w)); [|reflexivity]. destruct (get_summary _ _); reflexivity.
    + pose proof (ordinary_step w e O) as E. cbn [Tb_model.do_tevent] in E. rewrite E.
      destruct O as [O _]. destruct e; cbn; rewrite ?negb_involutive; congruence.
  - rewrite negb_involutive. apply log_flags.
Qed.
Lemma enabled_app es : forall b es', enabled b (es ++ es') = enabled (enabled b es) es'.
Proof. induction es as [|e es IH]; intros b es'; [reflexivity|]. cbn [app enabled]. destruct e as [[]| | | |]; apply IH. Qed.
Lemma disabled_run es : forall w, lg_disabled (w_log (trun w es)) = negb (enabled (negb (lg_disabled (w_log w))) es).
Proof.
  induction es as [|e es IH]; intros w; [cbn; now rewrite negb_involutive|].
  cbn [Tb_model.trun fold_left]. change (fold_left do_tevent es (do_tevent w e)) with (trun (do_tevent w e) es).
  rewrite IH, disabled_step, negb_involutive. now rewrite <- enabled_app.
Qed.
Lemma disabled_start before es : lg_disabled (w_log (trun tstart (before ++ TChain NewProcess :: es))) = negb (enabled true es).
Proof. rewrite trun_app. cbn [Tb_model.trun fold_left]. apply (disabled_run es). Qed.

(** ** The properties *)
Section Process.
Variables (root : string) (before es : list tevent).
Hypothesis OP : one_process root before es.
Let w := trun tstart (before ++ TChain NewProcess :: es).

Lemma log_in_evaluation_p c a : p_current (w_proc w) = Some c -> enabled true es = true -> good_counters a ->
  exists t u pre, In t (repo_of (w_proc w) root) /\ t_id t = t_id c /\ first_of (repo_of (w_proc w) root) t u /\
  (pre = t_id c \/ pre = ("config_" ++ t_id u)%string) /\
  let d := to_path (m_location (t_meta u)) ++ ["tbevents"] in
  ((~ asks a \/ m_previous_trial_id (t_meta c) = None \/ In d (w_tb w)) ->
     snd (log a w) = Ok tt /\ w_events (fst (log a w)) = w_events w ++ map (pair d) (entries pre (t_config c) a)) /\
  ((asks a /\ m_previous_trial_id (t_meta c) <> None /\ ~ In d (w_tb w)) ->
     snd (log a w) = Err FileNotFoundError /\ w_events (fst (log a w)) = w_events w).
Proof.
  intros C E N. assert (D : lg_disabled (w_log w) = false) by (unfold w; rewrite disabled_start, E; reflexivity).
  destruct (log_call_p root c a w (start_inv root before es OP) C D N) as (t & u & T & Q & F & H1 & H2). cbv zeta in *.
  eexists t, u, _. split; [exact T|]. split; [apply (core_inj _ _ Q)|]. split; [exact F|].
  split; [|split; [intros X; destruct (H1 X) as (Y1 & Y2 & _); split; [exact Y1|exact Y2]|exact H2]].
  destruct (lg_writer (w_log w)); auto.
Qed.

(** With the writer known *)
Lemma log_tags_p c a : p_current (w_proc w) = Some c -> enabled true es = true -> good_counters a -> asks a ->
  snd (log a w) = Ok tt ->
  exists t u, In t (repo_of (w_proc w) root) /\ t_id t = t_id c /\ first_of (repo_of (w_proc w) root) t u /\
  w_events (fst (log a w)) = w_events w ++
    map (pair (to_path (m_location (t_meta u)) ++ ["tbevents"]))
      (entries (match lg_writer (w_log w) with Some _ => t_id c | None => ("config_" ++ t_id u)%string end) (t_config c) a).
Proof.
  intros C E N A OK. assert (D : lg_disabled (w_log w) = false) by (unfold w; rewrite disabled_start, E; reflexivity).
  destruct (log_call_p root c a w (start_inv root before es OP) C D N) as (t & u & T & Q & F & H1 & H2). cbv zeta in *.
  exists t, u. split; [exact T|]. split; [apply (core_inj _ _ Q)|]. split; [exact F|].
  destruct (existsb (path_eqb (to_path (m_location (t_meta u)) ++ ["tbevents"])) (w_tb w)) eqn:X.
  - apply H1. right; right. apply existsb_exists in X as (y & Y1 & Y2). apply path_eqb_eq in Y2. now subst y.
  - destruct (m_previous_trial_id (t_meta c)) as [i|] eqn:PI.
    + exfalso. destruct H2 as (H2 & _); [|congruence]. split; [exact A|]. split; [discriminate|].
      intros Y. apply not_true_iff_false in X. apply X. apply existsb_exists. eexists. split; [exact Y|apply path_eqb_refl].
    + apply H1. auto.
Qed.
End Process.

(** *** When there is a writer *)
Lemma no_writer_step w e : lg_writer (w_log w) = None -> (forall a, e <> TLog a) -> lg_writer (w_log (do_tevent w e)) = None.
Proof.
  intros W N. destruct e as [e|a| | |d]; [|now destruct (N a)|exact W|exact W|exact W].
  destruct (ordinary_cases e) as [->|[(o & tb & drv & du & te & cb & ->)|O]].
  - reflexivity.
  - cbn [Tb_model.do_tevent]. destruct (finish pyfloat (w_proc w) o tb drv du te true); [|exact W].
    destruct (lg_registered (w_log w)); [|exact W]. unfold end_of_config. destruct (lg_incumbent (w_log w)); [|reflexivity].
    unfold track_incumbent. cbn [set_log w_log lg_root w_proc]. destruct (lg_root (w_log w)); [|reflexivity]. destruct (get_summary _ _); reflexivity.
  - now rewrite (ordinary_step w e O).
Qed.
Lemma no_writer_run es : forall w, lg_writer (w_log w) = None -> no_log es -> lg_writer (w_log (trun w es)) = None.
Proof.
  induction es as [|e es IH]; intros w W N; [exact W|]. cbn. apply IH; [|intros a H; apply (N a); now right].
  apply no_writer_step; [exact W|]. intros a ->. apply (N a). now left.
Qed.

Lemma log_writer_kept a w d : lg_writer (w_log w) = Some d -> lg_writer (w_log (fst (log a w))) = Some d.
Proof.
  intros W. rewrite log_is. destruct (lg_disabled (w_log w)); [exact W|].
  assert (K : forall (f g : act) x, (forall y, lg_writer (w_log y) = Some d -> lg_writer (w_log (fst (f y))) = Some d) ->
    (forall y, lg_writer (w_log y) = Some d -> lg_writer (w_log (fst (g y))) = Some d) ->
    lg_writer (w_log x) = Some d -> lg_writer (w_log (fst (andthen f g x))) = Some d).
  { intros f g x F G X. unfold andthen. specialize (F x X). destruct (f x) as [y [?|?]]; [now apply G|exact F]. }
  assert (EN : forall y, lg_writer (w_log y) = Some d -> lg_writer (w_log (fst (ensure_writer y))) = Some d).
  { intros y Y. unfold ensure_writer. now rewrite Y. }
  assert (EX : forall kx y, lg_writer (w_log y) = Some d -> lg_writer (w_log (fst (write_extra kx y))) = Some d).
  { intros [k [v|n|]] y Y; [| |exact Y]; (apply K; [exact EN| |exact Y]); intros z Z; cbv beta.
    - destruct (lg_writer (w_log z)) eqn:Z'; [|discriminate]. destruct (lg_epoch (w_log z)); cbn; congruence.
    - destruct (lg_epoch (w_log z)) as [q|]; [|exact Z]. destruct (q <? 0)%Z; [exact Z|]. destruct (n =? 0)%Z; [exact Z|].
      destruct (q mod n =? 0)%Z; [|exact Z]. destruct (lg_writer (w_log z)) eqn:Z'; cbn; congruence. }
  apply K; [| |exact W].
  - intros y Y. unfold initiate. destruct (get_in_progress_trial (w_proc y)); [|exact Y]. destruct (get_workers_neps_state (w_proc y)); exact Y.
  - intros y Y. unfold body. apply K; [| |exact Y].
    + destruct (la_scalar a); [apply (EX ("Loss", XScalar (la_loss a)))|auto].
    + intros z Z. apply K; [| |exact Z].
      * destruct (la_hparam a); [|auto]. intros x X. apply K; [exact EN| |exact X]. intros v V. cbv beta.
        destruct (lg_writer (w_log v)) eqn:V'; [|cbn; congruence].
        destruct (lg_config (w_log v)), (lg_epoch (w_log v)), (lg_loss (w_log v)); cbn; congruence.
      * induction (la_extra a) as [|kx l IH]; [auto|]. intros x X. apply K; [apply EX|exact IH|exact X].
Qed.
Lemma writer_step w e d : lg_writer (w_log w) = Some d -> e <> TChain NewProcess ->
  (forall o tb drv du te cb, e <> TChain (Finish o tb drv du te cb)) -> lg_writer (w_log (do_tevent w e)) = Some d.
Proof.
  intros W NP NF. destruct e as [e|a| | |x]; [|now apply log_writer_kept|exact W|exact W|exact W].
  rewrite ordinary_step; [exact W|]. split; [congruence|]. intros o tb drv du te cb ->. now destruct (NF o tb drv du te cb).
Qed.
Lemma writer_run es : forall w d, lg_writer (w_log w) = Some d -> same_process es -> no_finish es ->
  lg_writer (w_log (trun w es)) = Some d.
Proof.
  induction es as [|e es IH]; intros w d W P F; [exact W|]. cbn. apply IH.
  - apply writer_step; [exact W|intros ->; apply P; now left|]. intros o tb drv du te cb ->. apply (F o tb drv du te cb). now left.
  - intros H. apply P. now right.
  - intros o tb drv du te cb H. apply (F o tb drv du te cb). now right.
Qed.

Lemma split_process before es1 es2 : trun tstart (before ++ TChain NewProcess :: es1 ++ es2) =
  trun (trun tstart (before ++ TChain NewProcess :: es1)) es2.
Proof. rewrite <- trun_app. f_equal. now rewrite <- app_assoc. Qed.
Lemma one_process_prefix root before es1 es2 : one_process root before (es1 ++ es2) -> one_process root before es1.
Proof.
  intros (N & I & R). split; [|split].
  - intros a b H. apply (N a b). rewrite app_assoc. apply in_or_app. now left.
  - intros r id prev cfg time x H. apply (I r id prev cfg time x). rewrite app_assoc. apply in_or_app. now left.
  - intros r H. apply R, in_or_app. now left.
Qed.

Lemma first_tags_p root before es1 es2 c a : one_process root before (es1 ++ es2) ->
  p_current (w_proc (trun tstart (before ++ TChain NewProcess :: es1))) = None -> no_log es2 ->
  let w := trun tstart (before ++ TChain NewProcess :: es1 ++ es2) in
  p_current (w_proc w) = Some c -> enabled true (es1 ++ es2) = true -> good_counters a -> asks a ->
  snd (log a w) = Ok tt ->
  exists t u, In t (repo_of (w_proc w) root) /\ t_id t = t_id c /\ first_of (repo_of (w_proc w) root) t u /\
  w_events (fst (log a w)) = w_events w ++
    map (pair (to_path (m_location (t_meta u)) ++ ["tbevents"])) (entries ("config_" ++ t_id u) (t_config c) a).
Proof.
  intros OP CN NL w C E G A OK.
  destruct (log_tags_p root before (es1 ++ es2) OP c a C E G A OK) as (t & u & T & Q & F & H). fold w in T, F, H.
  exists t, u. split; [exact T|]. split; [exact Q|]. split; [exact F|].
  assert (W : lg_writer (w_log w) = None).
  { unfold w. rewrite split_process. apply no_writer_run; [|exact NL]. apply (writer_none root); [|exact CN].
    apply start_inv. now apply (one_process_prefix root before es1 es2). }
  rewrite W in H. exact H.
Qed.

Lemma later_tags_p root before es1 a es2 c1 c b : one_process root before (es1 ++ TLog a :: es2) ->
  let w1 := trun tstart (before ++ TChain NewProcess :: es1) in
  p_current (w_proc w1) = Some c1 -> enabled true es1 = true -> good_counters a -> asks a -> snd (log a w1) = Ok tt ->
  same_process es2 -> no_finish es2 ->
  let w := trun tstart (before ++ TChain NewProcess :: es1 ++ TLog a :: es2) in
  p_current (w_proc w) = Some c -> enabled true (es1 ++ TLog a :: es2) = true -> good_counters b -> asks b ->
  snd (log b w) = Ok tt ->
  exists t u, In t (repo_of (w_proc w) root) /\ t_id t = t_id c /\ first_of (repo_of (w_proc w) root) t u /\
  w_events (fst (log b w)) = w_events w ++
    map (pair (to_path (m_location (t_meta u)) ++ ["tbevents"])) (entries (t_id c) (t_config c) b).
Proof.
  intros OP w1 C1 E1 G1 A1 OK1 SP NF w C E G A OK.
  destruct (log_tags_p root before (es1 ++ TLog a :: es2) OP c b C E G A OK) as (t & u & T & Q & F & H). fold w in T, F, H.
  exists t, u. split; [exact T|]. split; [exact Q|]. split; [exact F|].
  pose proof (start_inv root before es1 (one_process_prefix root before es1 _ OP)) as IV. fold w1 in IV.
  assert (D : lg_disabled (w_log w1) = false) by (unfold w1; rewrite disabled_start, E1; reflexivity).
  destruct (log_call_p root c1 a w1 IV C1 D G1) as (t1 & u1 & T1 & Q1 & F1 & H1 & H2). cbv zeta in *.
  assert (W : exists d, lg_writer (w_log (fst (log a w1))) = Some d).
  { destruct (existsb (path_eqb (to_path (m_location (t_meta u1)) ++ ["tbevents"])) (w_tb w1)) eqn:X.
    - eexists. apply H1; [|exact A1]. right; right. apply existsb_exists in X as (y & Y1 & Y2). apply path_eqb_eq in Y2. now subst y.
    - destruct (m_previous_trial_id (t_meta c1)) as [i|] eqn:PI.
      + exfalso. destruct H2 as (H2 & _); [|congruence]. split; [exact A1|]. split; [discriminate|].
        intros Y. apply not_true_iff_false in X. apply X. apply existsb_exists. eexists. split; [exact Y|apply path_eqb_refl].
      + eexists. apply H1; [|exact A1]. auto. }
  destruct W as [d W]. assert (W' : lg_writer (w_log w) = Some d).
  { unfold w. rewrite split_process. cbn [Tb_model.trun fold_left]. apply (writer_run es2); [exact W|exact SP|exact NF]. }
  rewrite W' in H. exact H.
Qed.

(** *** Incumbents *)
Lemma flags_step w e : (forall a, e <> TLog a) -> e <> TChain NewProcess ->
  lg_incumbent (w_log (do_tevent w e)) = lg_incumbent (w_log w) /\
  lg_registered (w_log (do_tevent w e)) = lg_registered (w_log w).
Proof.
  intros NL NP. destruct e as [e|a| | |d]; [|now destruct (NL a)|auto|auto|auto].
  destruct (ordinary_cases e) as [->|[(o & tb & drv & du & te & cb & ->)|O]].
  - congruence.
  - cbn [Tb_model.do_tevent]. destruct (finish pyfloat (w_proc w) o tb drv du te true); [|auto].
    destruct (lg_registered (w_log w)) eqn:R; [|auto]. unfold end_of_config. destruct (lg_incumbent (w_log w)) eqn:I; [|auto].
    unfold track_incumbent. cbn [set_log w_log lg_root w_proc]. destruct (lg_root (w_log w)); [|auto]. destruct (get_summary _ _); auto.
  - rewrite (ordinary_step w e O). auto.
Qed.
Lemma flags_run es : forall w, no_log es -> same_process es ->
  lg_incumbent (w_log (trun w es)) = lg_incumbent (w_log w) /\ lg_registered (w_log (trun w es)) = lg_registered (w_log w).
Proof.
  induction es as [|e es IH]; intros w NL SP; [auto|]. cbn.
  destruct (flags_step w e) as [A B]; [intros a ->; apply (NL a); now left|intros ->; apply SP; now left|].
  rewrite <- A, <- B. apply IH; [intros a H; apply (NL a); now right|intros H; apply SP; now right].
Qed.

Lemma log_registers root w a c : inv root w -> p_current (w_proc w) = Some c -> lg_disabled (w_log w) = false ->
  lg_registered (w_log (fst (log a w))) = true.
Proof.
  intros IV C D. destruct (initiate_set_up root c a w IV C) as (E & SU & _). rewrite log_is, D. unfold andthen. rewrite E.
  pose proof (keeps_body root c a _ SU) as (_ & _ & _ & R & _). exact R.
Qed.

Lemma incumbent_p dir before es1 a es2 c o tb drv du te : (forall f, pyfloat (VFloat f) = Ok f) ->
  let root := (dir ++ "/configs")%string in
  one_process root before (es1 ++ TLog a :: es2) ->
  p_current (w_proc (trun tstart (before ++ TChain NewProcess :: es1))) <> None -> enabled true es1 = true ->
  no_log es2 -> same_process es2 ->
  let w := trun tstart (before ++ TChain NewProcess :: es1 ++ TLog a :: es2) in
  p_current (w_proc w) = Some c -> p_inside (w_proc w) = true -> reportable pyfloat drv o -> plain_trials (repo_of (w_proc w) root) ->
  let w' := do_tevent w (TChain (Finish o tb drv du te true)) in
  p_current (w_proc w') = None /\
  exists best n, incumbent_of (repo_of (w_proc w) root) best n /\
    w_events w' = w_events w ++ (if la_incumbent a then [(to_path dir ++ ["summary"], Incumbent best n)] else []).
Proof.
  intros FL root OP C1 E1 NL SP w C IN RP PT w'. subst w'.
  pose proof (start_inv root before _ OP) as IV. fold w in IV.
  pose proof (start_inv root before es1 (one_process_prefix root before es1 _ OP)) as IV1. set (w1 := trun tstart (before ++ TChain NewProcess :: es1)) in *.
  assert (D : lg_disabled (w_log w1) = false) by (unfold w1; rewrite disabled_start, E1; reflexivity).
  destruct (p_current (w_proc w1)) as [c1|] eqn:C1'; [|congruence].
  assert (K : lg_incumbent (w_log w) = la_incumbent a /\ lg_registered (w_log w) = true).
  { unfold w. rewrite split_process. fold w1. cbn [Tb_model.trun fold_left].
    change (fold_left do_tevent es2 (do_tevent w1 (TLog a))) with (trun (do_tevent w1 (TLog a)) es2).
    destruct (flags_run es2 (do_tevent w1 (TLog a)) NL SP) as [-> ->]. cbn [Tb_model.do_tevent].
    destruct (log_flags a w1) as (_ & _ & ->). rewrite D. split; [reflexivity|]. now apply (log_registers root w1 a c1). }
  destruct K as [KI KR].
  destruct (finish_clean_p pyfloat (w_proc w) c o tb drv du te C IN RP) as (p' & FN & DE & CN & _).
  destruct IV as (P & L). pose proof (proj1 (proj2 L) KR) as LR.
  destruct (summary_spec pyfloat FL _ PT) as (sm & SM & S1 & _ & S3 & S4 & _).
  assert (RD : removelast (to_path root) = to_path dir).
  { unfold root. change (dir ++ "/configs")%string with (dir ++ "/" ++ "configs")%string. rewrite to_path_below.
    - apply removelast_last.
    - split; [discriminate|]. split; [discriminate|]. cbn. intuition discriminate. }
  cbn [Tb_model.do_tevent]. rewrite FN, KR. unfold end_of_config. rewrite KI.
  assert (IO : incumbent_of (repo_of (w_proc w) root) (s_best_loss sm) (s_num_evaluated sm)).
  { split; [exact S1|]. split; [exact S3|]. destruct S4 as [[S4 _]|[_ (t & T1 & T2 & _)]]; [now left|right; eauto]. }
  destruct (la_incumbent a).
  - unfold track_incumbent. cbn [set_log w_log lg_root w_proc lg_summary w_events w_tb]. rewrite LR, SM. cbn [is_ok andb with_proc w_proc w_events].
    rewrite DE. split; [exact CN|]. exists (s_best_loss sm), (s_num_evaluated sm). split; [exact IO|]. f_equal. f_equal. f_equal.
    destruct (lg_summary (w_log w)) as [d|] eqn:LS; [|now rewrite RD]. rewrite (proj2 (proj2 L) d LS). unfold summary_dir. now rewrite RD.
  - cbn [set_log is_ok andb with_proc w_proc w_events]. rewrite DE. split; [exact CN|].
    exists (s_best_loss sm), (s_num_evaluated sm). split; [exact IO|]. now rewrite app_nil_r.
Qed.

Lemma disabled_call_p before es a : enabled true es = false ->
  let w := trun tstart (before ++ TChain NewProcess :: es) in log a w = (w, Ok tt).
Proof. intros E. cbv zeta. rewrite log_is, disabled_start, E. reflexivity. Qed.

(** *** What a call leaves alone *)
Lemma log_leaves_p a w : let w' := fst (log a w) in
  p_repos (w_proc w') = p_repos (w_proc w) /\ p_files (w_proc w') = p_files (w_proc w) /\
  p_state (w_proc w') = p_state (w_proc w) /\ p_current (w_proc w') = p_current (w_proc w) /\
  p_inside (w_proc w') = p_inside (w_proc w).
Proof. pose proof (log_same a w) as (A & B & C & D & E & F). cbv zeta. auto. Qed.
End Run.

(** ** Grids *)
Section Grid.
Variables (nrow batch height width : nat).
Hypothesis (NR : 0 < nrow) (NB : 0 < batch).
Let cols := grid_columns nrow batch.
Let rows := grid_rows nrow batch.
Lemma cols_pos : 0 < cols.
Proof. unfold cols, grid_columns. lia. Qed.
Lemma enough : batch <= rows * cols /\ (rows - 1) * cols < batch /\ 0 < rows.
Proof.
  pose proof cols_pos as CP. unfold rows, grid_rows. fold cols. set (q := (batch + cols - 1) / cols).
  pose proof (Nat.div_mod (batch + cols - 1) cols ltac:(lia)) as E. fold q in E.
  pose proof (Nat.mod_upper_bound (batch + cols - 1) cols ltac:(lia)) as U.
  assert (q <> 0) by (intros Z; rewrite Z in E; nia). nia.
Qed.
Definition place_of (y x : nat) : place :=
  mkGP (y * (height + 2) + 2) (y * (height + 2) + 2 + (height + 2) - 2) (x * (width + 2) + 2) (x * (width + 2) + 2 + (width + 2) - 2).
Definition all_places : list place := flat_map (fun y => map (place_of y) (seq 0 cols)) (seq 0 rows).

Lemma rows_length n f : (forall y, length (f y : list place) = cols) -> length (flat_map f (seq 0 n)) = n * cols.
Proof.
  intros H. generalize 0. induction n as [|n IH]; intros k; [reflexivity|]. cbn [seq flat_map]. rewrite app_length, H, IH. reflexivity.
Qed.
Lemma nth_places k : k < rows * cols -> nth_error all_places k = Some (place_of (k / cols) (k mod cols)).
Proof.
  pose proof cols_pos as CP. unfold all_places.
  assert (G : forall n s k, k < n * cols -> nth_error (flat_map (fun y => map (place_of y) (seq 0 cols)) (seq s n)) k =
    Some (place_of (s + k / cols) (k mod cols))).
  { induction n as [|n IH]; intros s j H; [lia|]. cbn [seq flat_map].
    destruct (Nat.lt_ge_cases j cols) as [J|J].
    - rewrite nth_error_app1 by (rewrite map_length, seq_length; exact J). rewrite Nat.div_small, Nat.mod_small by exact J.
      rewrite Nat.add_0_r. erewrite map_nth_error; [reflexivity|]. rewrite (nth_error_nth' _ 0) by (now rewrite seq_length).
      now rewrite seq_nth.
    - rewrite nth_error_app2 by (rewrite map_length, seq_length; exact J). rewrite map_length, seq_length, IH by lia.
      replace j with ((j - cols) + 1 * cols) at 3 4 by lia. rewrite Nat.div_add, Nat.mod_add by lia. f_equal. f_equal. lia. }
  intros H. now rewrite G.
Qed.
Lemma grid_p : exists h w places, make_grid nrow batch height width = Ok (h, w, places) /\ length places = batch /\
  (forall k p, nth_error places k = Some p -> inside h w p /\ gp_bottom p = gp_top p + height /\ gp_right p = gp_left p + width) /\
  (forall j k p q, j <> k -> nth_error places j = Some p -> nth_error places k = Some q -> apart p q).
Proof.
  pose proof cols_pos as CP. destruct enough as (E1 & E2 & E3). unfold make_grid. fold cols rows.
  replace (Nat.eqb cols 0) with false by (symmetry; apply Nat.eqb_neq; lia).
  eexists _, _, _. split; [reflexivity|]. change (flat_map _ (seq 0 rows)) with all_places.
  assert (LA : length all_places = rows * cols).
  { apply rows_length. intros y. now rewrite map_length, seq_length. }
  assert (NT : forall k p, nth_error (firstn batch all_places) k = Some p -> k < batch /\ p = place_of (k / cols) (k mod cols)).
  { intros k p H. assert (L : k < length (firstn batch all_places)) by (apply nth_error_Some; congruence).
    rewrite firstn_length in L. split; [lia|]. rewrite <- (firstn_skipn batch all_places) in LA.
    assert (H' : nth_error all_places k = Some p).
    { rewrite <- (firstn_skipn batch all_places). rewrite nth_error_app1; [exact H|]. rewrite firstn_length. lia. }
    rewrite nth_places in H' by lia. congruence. }
  split; [rewrite firstn_length, LA; lia|]. split.
  - intros k p H. apply NT in H as (K & ->).
    assert (k / cols < rows) by (apply Nat.div_lt_upper_bound; nia). pose proof (Nat.mod_upper_bound k cols ltac:(lia)).
    unfold inside, place_of. cbn [gp_top gp_bottom gp_left gp_right]. nia.
  - intros j k p q D H1 H2. apply NT in H1 as (K1 & ->). apply NT in H2 as (K2 & ->).
    unfold apart, place_of. cbn [gp_top gp_bottom gp_left gp_right].
    destruct (Nat.lt_trichotomy (j / cols) (k / cols)) as [L|[L|L]].
    + left. nia.
    + destruct (Nat.lt_trichotomy (j mod cols) (k mod cols)) as [M|[M|M]].
      * right; right; left. nia.
      * exfalso. apply D. rewrite (Nat.div_mod j cols), (Nat.div_mod k cols) by lia. congruence.
      * right; right; right. nia.
    + right; left. nia.
Qed.
End Grid.
