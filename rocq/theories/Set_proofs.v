(** Settings: YAML file, merge, defaults. *)
From Verif Require Import Set_spec Py_proofs Set_flat_proofs.
Local Notation length := List.length.

Lemma remove_key_keys {V} k (d : list (string * V)) j : In j (map fst (remove_key k d)) <-> j <> k /\ In j (map fst d).
Proof.
  induction d as [|(k', v') d IH]; cbn [remove_key map In fst]; [intuition|].
  destruct (String.eqb_spec k k') as [->|N]; cbn [map In fst]; rewrite IH; [intuition congruence|]. intuition congruence.
Qed.
Lemma remove_key_nodup {V} k (d : list (string * V)) : NoDup (map fst d) -> NoDup (map fst (remove_key k d)).
Proof.
  induction d as [|(k', v') d IH]; cbn [remove_key map fst]; intros N; [constructor|].
  inversion N as [|? ? N1 N2]; subst. destruct (String.eqb k k'); [auto|]. cbn [map fst]. constructor; [|auto]. rewrite remove_key_keys. intuition.
Qed.
Lemma filter_nodup {V} f (d : list (string * V)) : NoDup (map fst d) -> NoDup (map fst (filter f d)).
Proof.
  induction d as [|(k', v') d IH]; cbn [filter map fst]; intros N; [constructor|]. inversion N as [|? ? N1 N2]; subst.
  destruct (f (k', v')); [|auto]. cbn [map fst]. constructor; [|auto]. intros I. apply N1.
  apply in_map_iff in I. destruct I as ((k, v) & E & I). apply filter_In in I. apply in_map_iff. exists (k, v). intuition.
Qed.
Lemma lookup_filter {V} (f : string -> bool) (d : list (string * V)) k : lookup k (filter (fun kv => f (fst kv)) d) = if f k then lookup k d else None.
Proof.
  induction d as [|(k', v') d IH]; cbn [filter lookup fst]; [destruct (f k); reflexivity|].
  destruct (f k') eqn:F; cbn [lookup]; rewrite IH; destruct (String.eqb_spec k k') as [->|N]; try reflexivity; rewrite F; reflexivity.
Qed.
Lemma lookup_app {V} (d e : list (string * V)) k : lookup k (d ++ e) = match lookup k d with Some v => Some v | None => lookup k e end.
Proof. induction d as [|(k', v') d IH]; cbn [app lookup]; [reflexivity|]. destruct (String.eqb k k'); [reflexivity|exact IH]. Qed.
Lemma lookup_map {V W} (f : string * V -> W) (d : list (string * V)) k :
  lookup k (map (fun kv => (fst kv, f kv)) d) = match lookup k d with Some v => Some (f (k, v)) | None => None end.
Proof.
  induction d as [|(k', v') d IH]; cbn [map lookup fst]; [reflexivity|].
  destruct (String.eqb_spec k k') as [->|N]; [reflexivity|exact IH].
Qed.
Lemma smem_In k l : smem k l = true <-> In k l.
Proof.
  unfold smem. rewrite existsb_exists. split.
  - intros (x & I & E). apply String.eqb_eq in E. subst. exact I.
  - intros I. exists k. rewrite String.eqb_refl. auto.
Qed.

(** ** The YAML file *)
Lemma simple_settings_spec flat : forall settings s, NoDup (map fst flat) -> NoDup (map fst settings) -> simple_settings flat settings = Ok s ->
  NoDup (map fst s) /\ (forall k, lookup k s = match lookup k flat with Some v => Some v | None => lookup k settings end) /\
  (forall k, In k (map fst flat) -> In k expected).
Proof.
  induction flat as [|(k, v) flat IH]; intros settings s NF NS H.
  - injection H as <-. split; [exact NS|]. split; [reflexivity|intros k []].
  - cbn [simple_settings] in H. destruct (smem k expected) eqn:M; [|discriminate]. apply smem_In in M. inversion NF as [|? ? N1 N2]; subst.
    destruct (IH (set_key k v settings) s N2 (set_key_nodup k v settings NS) H) as (A & B & C). split; [exact A|]. split.
    + intros j. rewrite B, lookup_set_key. cbn [lookup]. destruct (String.eqb_spec j k) as [->|NE]; [|reflexivity].
      assert (L : lookup k flat = None) by (apply lookup_None; exact N1). rewrite L. reflexivity.
    + intros j [<-|I]; [exact M|apply C, I].
Qed.
Lemma simple_settings_err flat : forall settings k, In k (map fst flat) -> ~ In k expected -> simple_settings flat settings = Err KeyError.
Proof.
  induction flat as [|(k', v) flat IH]; intros settings k I N; [destruct I|]. cbn [simple_settings].
  destruct (smem k' expected) eqn:M; [|reflexivity]. apply smem_In in M. destruct I as [<-|I]; [contradiction|]. eapply IH; eauto.
Qed.

Section Yaml.
  Context (E : env).
  Definition adds (names : list string) (s s' : dict) : Prop :=
    (NoDup (map fst s) -> NoDup (map fst s')) /\ forall k, ~ In k names -> lookup k s' = lookup k s.
  Lemma adds_refl names s : adds names s s.
  Proof. split; auto. Qed.
  Lemma adds_set names k v s : In k names -> adds names s (set_key k v s).
  Proof.
    intros I. split; [apply set_key_nodup|]. intros j N. rewrite lookup_set_key. destruct (String.eqb_spec j k) as [->|NE]; [contradiction|reflexivity].
  Qed.
  Lemma adds_trans names s s' s'' : adds names s s' -> adds names s' s'' -> adds names s s''.
  Proof. intros (A & B) (C & D). split; [auto|]. intros k N. rewrite D, B; auto. Qed.
  Lemma adds_more names names' s s' : incl names names' -> adds names s s' -> adds names' s s'.
  Proof. intros I (A & B). split; auto. Qed.

  Lemma run_pipeline_adds sp s s' : process_run_pipeline E sp s = Ok s' -> adds ["run_pipeline"] s s' /\
    match get_special "run_pipeline" sp with
    | None => s' = s
    | Some v => exists d p n f, v = VDict d /\ lookup "path" d = Some p /\ lookup "name" d = Some n /\ e_load E p n = Ok f /\ lookup "run_pipeline" s' = Some f
    end.
  Proof.
    unfold process_run_pipeline. destruct (get_special "run_pipeline" sp) as [v|]; [|intros [= <-]; split; [apply adds_refl|reflexivity]].
    destruct v; cbn [subscript bind]; try discriminate.
    destruct (lookup "path" d) as [p|] eqn:LP; cbn [bind]; [|discriminate]. destruct (lookup "name" d) as [n|] eqn:LN; cbn [bind]; [|discriminate].
    destruct (e_load E p n) as [f|] eqn:L; cbn [bind]; [|discriminate]. intros [= <-]. split; [apply adds_set; left; reflexivity|].
    exists d, p, n, f. repeat split; auto. rewrite lookup_set_key. reflexivity.
  Qed.
  Lemma pipeline_space_adds sp s s' : process_pipeline_space E sp s = Ok s' -> adds ["pipeline_space"] s s'.
  Proof.
    unfold process_pipeline_space. destruct (get_special "pipeline_space" sp) as [v|]; [|intros [= <-]; apply adds_refl].
    destruct (match v with VDict _ => _ | _ => _ end); cbn [bind]; [|discriminate]. intros [= <-]. apply adds_set. left. reflexivity.
  Qed.
  Lemma searcher_adds sp s s' : process_searcher E sp s = Ok s' -> adds ["searcher"; "searcher_kwargs"] s s' /\
    match get_special "searcher" sp with
    | None => s' = s
    | Some (VDict d) =>
        if has_path_name d then
          (exists p n f, lookup "path" d = Some p /\ lookup "name" d = Some n /\ e_load E p n = Ok f /\ lookup "searcher" s' = Some f) /\
          lookup "searcher_kwargs" s' = Some (VDict (remove_key "name" (remove_key "path" d)))
        else s' = set_key "searcher" (VDict d) s
    | Some v => s' = set_key "searcher" v s /\ exists n, v = VStr n
    end.
  Proof.
    unfold process_searcher. destruct (get_special "searcher" sp) as [v|]; [|intros [= <-]; split; [apply adds_refl|reflexivity]].
    destruct v as [|b|z|f|n|l|l|d|o]; try discriminate.
    - intros [= <-]. split; [apply adds_set; left; reflexivity|]. split; [reflexivity|eauto].
    - destruct (has_path_name d) eqn:P.
      + cbn [subscript]. destruct (lookup "path" d) as [p|]; cbn [bind]; [|discriminate]. destruct (lookup "name" d) as [n|]; cbn [bind]; [|discriminate].
        destruct (e_load E p n) as [f|] eqn:L; cbn [bind]; [|discriminate]. intros [= <-]. split.
        { eapply adds_trans; apply adds_set; cbn; auto. }
        split; [exists p, n, f; repeat split; auto; rewrite lookup_set_key; reflexivity|]. rewrite !lookup_set_key. reflexivity.
      + intros [= <-]. split; [apply adds_set; left; reflexivity|reflexivity].
  Qed.
  Lemma hooks_adds sp s s' : process_hooks E sp s = Ok s' -> adds ["pre_load_hooks"] s s'.
  Proof.
    unfold process_hooks. destruct (get_special "pre_load_hooks" sp) as [v|]; [|intros [= <-]; apply adds_refl].
    destruct v; try discriminate. destruct (mapM _ d); cbn [bind]; [|discriminate]. intros [= <-]. apply adds_set. left. reflexivity.
  Qed.
  Lemma check_one_typed k v : check_one E k v = Ok tt -> typed E k v.
  Proof.
    unfold check_one. destruct (smem k ["development_stage_id"; "task_id"]) eqn:M1.
    { apply smem_In in M1. destruct M1 as [<-|[<-|[]]]; intros _; constructor. }
    destruct (String.eqb_spec k "pre_load_hooks") as [->|_].
    { destruct v; try discriminate. destruct (forallb (e_callable E) l) eqn:F; [|discriminate]. intros _. constructor. apply Forall_forall. apply forallb_forall, F. }
    destruct (String.eqb_spec k "searcher") as [->|_].
    { destruct v as [|b|z|f|n|l|l|d|o]; cbn [is_str is_dict orb]; try (intros _; constructor; fail);
      destruct (e_subclass E _) as [[]|] eqn:S; cbn [bind]; try discriminate; intros _; apply ty_searcher_class; exact S. }
    unfold type_ok.
    destruct (String.eqb_spec k "run_pipeline") as [->|_]. { destruct (e_callable E v) eqn:X; [|discriminate]. intros _. constructor. exact X. }
    destruct (String.eqb_spec k "root_directory") as [->|_]. { destruct v; try discriminate. intros _. constructor. }
    destruct (String.eqb_spec k "pipeline_space") as [->|_]. { destruct v; try discriminate; intros _; constructor. }
    destruct (smem k ["overwrite_working_directory"; "post_run_summary"; "continue_until_max_evaluation_completed"; "ignore_errors"]) eqn:M2.
    { apply smem_In in M2. destruct v; try discriminate. intros _. destruct M2 as [<-|[<-|[<-|[<-|[]]]]]; constructor. }
    destruct (smem k ["max_evaluations_total"; "max_evaluations_per_run"]) eqn:M3.
    { apply smem_In in M3. destruct (is_intv v) eqn:X; [|discriminate]. intros _. destruct M3 as [<-|[<-|[]]]; constructor; exact X. }
    destruct (String.eqb_spec k "max_cost_total") as [->|_].
    { destruct (is_intv v) eqn:X; [intros _; apply ty_cost_int; exact X|]. destruct v; try discriminate. intros _. apply ty_cost_float. }
    destruct (smem k ["loss_value_on_error"; "cost_value_on_error"]) eqn:M4.
    { apply smem_In in M4. destruct v; try discriminate. intros _. destruct M4 as [<-|[<-|[]]]; constructor. }
    destruct (String.eqb_spec k "searcher_kwargs") as [->|_]; [|discriminate]. destruct v; try discriminate. intros _. constructor.
  Qed.
  Lemma check_args_typed s : check_run_args E s = Ok tt -> Forall (fun kv => typed E (fst kv) (snd kv)) s.
  Proof.
    induction s as [|(k, v) s IH]; intros H; [constructor|]. cbn [check_run_args] in H.
    destruct (check_one E k v) as [[]|] eqn:C; cbn [bind] in H; [|discriminate]. constructor; [apply check_one_typed, C|auto].
  Qed.
  Lemma type_ok_typed k v : typed E k v -> check_one E k v = Ok tt.
  Proof.
    intros T. destruct T; try reflexivity; try (unfold check_one, type_ok; cbn [smem existsb String.eqb orb]; cbn; rewrite ?H; reflexivity).
    - cbn. apply Forall_forall in H || idtac. assert (F : forallb (e_callable E) l = true) by (apply forallb_forall; rewrite Forall_forall in H; exact H).
      rewrite F. reflexivity.
    - cbn. destruct (is_str v || is_dict v)%bool; [reflexivity|]. rewrite H. reflexivity.
  Qed.

  Lemma yaml_ok c ys : yaml_settings E c = Ok ys -> exists d flat sp s s1 s2 s3 s4, c = VDict d /\ extract_leaf_keys c = Ok (flat, sp) /\
    simple_settings flat [] = Ok s /\ process_run_pipeline E sp s = Ok s1 /\ process_pipeline_space E sp s1 = Ok s2 /\
    process_searcher E sp s2 = Ok s3 /\ process_hooks E sp s3 = Ok s4 /\ check_run_args E s4 = Ok tt /\ ys = s4.
  Proof.
    unfold yaml_settings. intros H. destruct c as [|b|z|f|n|l|l|d|o]; try discriminate.
    destruct (extract_leaf_keys (VDict d)) as [(flat, sp)|] eqn:E0; cbn [bind] in H; [|discriminate].
    destruct (simple_settings flat []) as [s|] eqn:E1; cbn [bind] in H; [|discriminate].
    destruct (process_run_pipeline E sp s) as [s1|] eqn:E2; cbn [bind] in H; [|discriminate].
    destruct (process_pipeline_space E sp s1) as [s2|] eqn:E3; cbn [bind] in H; [|discriminate].
    destruct (process_searcher E sp s2) as [s3|] eqn:E4; cbn [bind] in H; [|discriminate].
    destruct (process_hooks E sp s3) as [s4|] eqn:E5; cbn [bind] in H; [|discriminate].
    destruct (check_run_args E s4) as [[]|] eqn:E6; cbn [bind] in H; [|discriminate]. injection H as <-.
    exists d, flat, sp, s, s1, s2, s3, s4. repeat split; auto.
  Qed.
  Lemma yaml_nodup c ys : yaml_settings E c = Ok ys -> NoDup (map fst ys).
  Proof.
    intros H. destruct (yaml_ok c ys H) as (d & flat & sp & s & s1 & s2 & s3 & s4 & -> & E0 & E1 & E2 & E3 & E4 & E5 & E6 & ->).
    destruct (flatten_leaf_l d flat sp E0) as (N & _). destruct (simple_settings_spec flat [] s N ltac:(constructor) E1) as (N' & _).
    apply (proj1 (hooks_adds _ _ _ E5)), (proj1 (proj1 (searcher_adds _ _ _ E4))), (proj1 (pipeline_space_adds _ _ _ E3)), (proj1 (proj1 (run_pipeline_adds _ _ _ E2))), N'.
  Qed.
  Lemma yaml_lookup_simple d ys : yaml_settings E (VDict d) = Ok ys -> exists flat sp, extract_leaf_keys (VDict d) = Ok (flat, sp) /\
    (forall k, In k expected -> lookup k ys = lookup k flat) /\ (forall k, In k (map fst flat) -> In k expected).
  Proof.
    intros H. destruct (yaml_ok (VDict d) ys H) as (d' & flat & sp & s & s1 & s2 & s3 & s4 & _ & E0 & E1 & E2 & E3 & E4 & E5 & E6 & ->).
    exists flat, sp. split; [exact E0|]. destruct (flatten_leaf_l d flat sp E0) as (N & _). destruct (simple_settings_spec flat [] s N ltac:(constructor) E1) as (_ & L & M).
    split; [|exact M]. intros k K.
    assert (D : forall names, In names [["run_pipeline"]; ["pipeline_space"]; ["searcher"; "searcher_kwargs"]; ["pre_load_hooks"]] -> ~ In k names).
    { intros names I J. cbn in I, K. intuition (subst; cbn in *; intuition (subst; discriminate)). }
    rewrite (proj2 (hooks_adds _ _ _ E5)) by (apply D; cbn; auto). rewrite (proj2 (proj1 (searcher_adds _ _ _ E4))) by (apply D; cbn; auto).
    rewrite (proj2 (pipeline_space_adds _ _ _ E3)) by (apply D; cbn; auto). rewrite (proj2 (proj1 (run_pipeline_adds _ _ _ E2))) by (apply D; cbn; auto).
    rewrite L. destruct (lookup k flat); reflexivity.
  Qed.
  Lemma yaml_simple_l d ys : yaml_settings E (VDict d) = Ok ys ->
    (forall k v, In k expected -> lookup k ys = Some v -> exists p, leaf_at d p k v) /\
    (forall p k v, leaf_at d p k v -> In k expected /\ exists w, lookup k ys = Some w).
  Proof.
    intros H. destruct (yaml_lookup_simple d ys H) as (flat & sp & E0 & L & M). destruct (flatten_leaf_l d flat sp E0) as (_ & F1 & F2). split.
    - intros k v K LY. rewrite L in LY by exact K. apply F1, LY.
    - intros p k v P. destruct (F2 p k v P) as (w & LW). assert (K : In k expected) by (apply M; apply lookup_In in LW; apply (in_map fst) in LW; exact LW).
      split; [exact K|]. exists w. rewrite L by exact K. exact LW.
  Qed.
  Lemma yaml_simple_once d ys : wf_val (VDict d) -> leaves_once d -> yaml_settings E (VDict d) = Ok ys ->
    forall k v, In k expected -> (lookup k ys = Some v <-> exists p, leaf_at d p k v).
  Proof.
    intros W O H k v K. destruct (yaml_lookup_simple d ys H) as (flat & sp & E0 & L & M). rewrite L by exact K. apply (flatten_leaf_once d flat sp W O E0).
  Qed.
  Lemma yaml_unknown_l d p k v : leaf_at d p k v -> ~ In k expected -> yaml_settings E (VDict d) = Err KeyError.
  Proof.
    intros P N. unfold yaml_settings. destruct (extract_leaf_keys (VDict d)) as [(flat, sp)|] eqn:E0; [|discriminate]. cbn [bind].
    destruct (flatten_leaf_l d flat sp E0) as (_ & _ & F). destruct (F p k v P) as (w & L). apply lookup_In in L. apply (in_map fst) in L.
    rewrite (simple_settings_err flat [] k L N). reflexivity.
  Qed.
  Lemma yaml_typed_l c ys k v : yaml_settings E c = Ok ys -> In (k, v) ys -> typed E k v.
  Proof.
    intros H I. destruct (yaml_ok c ys H) as (d & flat & sp & s & s1 & s2 & s3 & s4 & -> & _ & _ & _ & _ & _ & _ & E6 & ->).
    apply check_args_typed in E6. rewrite Forall_forall in E6. exact (E6 _ I).
  Qed.
  Lemma yaml_keys c ys k v : yaml_settings E c = Ok ys -> In (k, v) ys -> In k attributes.
  Proof. intros H I. pose proof (yaml_typed_l c ys k v H I) as T. destruct T; cbn; auto 20. Qed.
  (** The options of the searcher. *)
  Lemma yaml_kwargs_l d ys : wf_val (VDict d) -> specials_once d -> yaml_settings E (VDict d) = Ok ys ->
    forall o, lookup "searcher_kwargs" ys = Some o <-> exists p e x y, special_at d p "searcher" (VDict e) /\ lookup "path" e = Some x /\ lookup "name" e = Some y /\
      o = VDict (remove_key "name" (remove_key "path" e)).
  Proof.
    intros W O H o. destruct (yaml_ok (VDict d) ys H) as (d' & flat & sp & s & s1 & s2 & s3 & s4 & _ & E0 & E1 & E2 & E3 & E4 & E5 & E6 & ->).
    rewrite (proj2 (hooks_adds _ _ _ E5)) by (cbn; intuition discriminate).
    assert (L2 : lookup "searcher_kwargs" s2 = None).
    { rewrite (proj2 (pipeline_space_adds _ _ _ E3)) by (cbn; intuition discriminate).
      rewrite (proj2 (proj1 (run_pipeline_adds _ _ _ E2))) by (cbn; intuition discriminate).
      destruct (flatten_leaf_l d flat sp E0) as (N & _). destruct (simple_settings_spec flat [] s N ltac:(constructor) E1) as (_ & L & M).
      rewrite L. destruct (lookup "searcher_kwargs" flat) as [w|] eqn:LF; [|reflexivity]. apply lookup_In in LF. apply (in_map fst) in LF. apply M in LF. cbn in LF. intuition discriminate. }
    pose proof (flatten_special_once d flat sp W O E0 "searcher") as FS. destruct (searcher_adds _ _ _ E4) as (_ & S).
    assert (UN : forall p e, special_at d p "searcher" (VDict e) -> get_special "searcher" sp = Some (VDict e)).
    { intros p e P. apply FS; [discriminate|]. eauto. }
    destruct (get_special "searcher" sp) as [v|] eqn:G.
    - assert (NV : v <> VNone). { unfold get_special in G. destruct (lookup "searcher" sp) as [[]|]; try discriminate; injection G as <-; discriminate. }
      destruct (proj1 (FS v NV) eq_refl) as (p & P). destruct v as [|b|z|f|n|l|l|e|ob]; try (destruct S as (_ & (n' & X)); discriminate).
      + destruct S as (-> & _). rewrite lookup_set_key. cbn [String.eqb Ascii.eqb Bool.eqb]. rewrite L2. split; [discriminate|]. intros (p' & e & x & y & P' & _). apply UN in P'. discriminate.
      + destruct (has_path_name e) eqn:HP.
        * destruct S as ((x & y & f & LX & LY & _ & _) & SK). rewrite SK. split.
          { intros [= <-]. exists p, e, x, y. auto. }
          { intros (p' & e' & x' & y' & P' & _ & _ & ->). apply UN in P'. injection P' as ->. reflexivity. }
        * subst s3. rewrite lookup_set_key. cbn [String.eqb Ascii.eqb Bool.eqb]. rewrite L2. split; [discriminate|].
          intros (p' & e' & x' & y' & P' & LX & LY & _). apply UN in P'. injection P' as ->. unfold has_path_name, has_key in HP. rewrite LX, LY in HP. discriminate.
    - subst s3. rewrite L2. split; [discriminate|]. intros (p' & e & x & y & P' & _). apply UN in P'. discriminate.
  Qed.
End Yaml.

(** ** Merge *)
Definition val (a : arg) : pyval := match a with Dflt v | Given v => v end.
Lemma plain_spec args : NoDup (map fst args) -> forall d, let r := fold_left (fun d kv => set_key (fst kv) (match snd kv with Dflt v | Given v => v end) d) args d in
  (NoDup (map fst d) -> NoDup (map fst r)) /\ forall k, lookup k r = match lookup k args with Some a => Some (val a) | None => lookup k d end.
Proof.
  induction args as [|(k, a) args IH]; intros N d r; [split; auto|]. inversion N as [|? ? N1 N2]; subst. cbn [fold_left fst snd] in r.
  destruct (IH N2 (set_key k (val a) d)) as (A & B). split; [intros; apply A, set_key_nodup; auto|].
  intros j. unfold r. change (match a with Dflt v | Given v => v end) with (val a). rewrite B, lookup_set_key. cbn [lookup].
  destruct (String.eqb_spec j k) as [->|NE]; [|reflexivity]. assert (L : lookup k args = None) by (apply lookup_None; exact N1). rewrite L. reflexivity.
Qed.
Lemma merge_spec args : NoDup (map fst args) -> forall yaml merged m, merge_loop args yaml merged = Ok m ->
  (NoDup (map fst merged) -> NoDup (map fst m)) /\
  (forall k, k <> "searcher_kwargs" -> lookup k m = match lookup k args with
     | None => lookup k merged
     | Some (Given v) => Some v
     | Some (Dflt v) => if has_key k yaml then lookup k merged else Some v
     end) /\
  (forall v, lookup "searcher_kwargs" args = Some (Given (VDict v)) ->
     exists y, match lookup "searcher_kwargs" yaml with Some w => w = VDict y | None => y = [] end /\ lookup "searcher_kwargs" m = Some (VDict (update y v))) /\
  (lookup "searcher_kwargs" args = None -> lookup "searcher_kwargs" m = lookup "searcher_kwargs" merged).
Proof.
  induction args as [|(k, a) args IH]; intros N yaml merged m H.
  - injection H as <-. split; [auto|]. split; [auto|]. split; [discriminate|auto].
  - inversion N as [|? ? N1 N2]; subst. cbn [merge_loop] in H. destruct (String.eqb_spec k "searcher_kwargs") as [->|NE].
    + assert (L : lookup "searcher_kwargs" args = None) by (apply lookup_None; exact N1).
      destruct (lookup "searcher_kwargs" yaml) as [w|] eqn:LY.
      * destruct (as_dict w) as [y|] eqn:AD; cbn [bind] in H; [|discriminate]. destruct w; try discriminate. injection AD as ->.
        destruct a as [v|v]; [discriminate|]. destruct (as_dict v) as [f|] eqn:AF; cbn [bind] in H; [|discriminate]. destruct v; try discriminate. injection AF as ->.
        destruct (IH N2 _ _ _ H) as (A & B & _ & D). split; [intros; apply A, set_key_nodup; auto|]. split.
        { intros j NJ. rewrite B by exact NJ. cbn [lookup]. rewrite lookup_set_key. unfold has_key. rewrite lookup_remove_key.
          destruct (String.eqb_spec j "searcher_kwargs") as [E0|_]; [contradiction|]. reflexivity. }
        split; [|cbn [lookup]; rewrite String.eqb_refl; discriminate]. intros v. cbn [lookup]. rewrite String.eqb_refl. intros [= <-]. exists y. split; [reflexivity|].
        rewrite (D L), lookup_set_key, String.eqb_refl. reflexivity.
      * cbn [bind] in H.
        destruct a as [v|v]; [discriminate|]. destruct (as_dict v) as [f|] eqn:AF; cbn [bind] in H; [|discriminate]. destruct v; try discriminate. injection AF as ->.
        destruct (IH N2 _ _ _ H) as (A & B & _ & D). split; [intros; apply A, set_key_nodup; auto|]. split.
        { intros j NJ. rewrite B by exact NJ. cbn [lookup]. rewrite lookup_set_key. unfold has_key. rewrite lookup_remove_key.
          destruct (String.eqb_spec j "searcher_kwargs") as [E0|_]; [contradiction|]. reflexivity. }
        split; [|cbn [lookup]; rewrite String.eqb_refl; discriminate]. intros v. cbn [lookup]. rewrite String.eqb_refl. intros [= <-]. exists []. split; [reflexivity|].
        rewrite (D L), lookup_set_key, String.eqb_refl. reflexivity.
    + assert (L : lookup k args = None) by (apply lookup_None; exact N1).
      assert (SET : forall v, merge_loop args yaml (set_key k v merged) = Ok m -> (NoDup (map fst merged) -> NoDup (map fst m)) /\
        (forall j, j <> "searcher_kwargs" -> lookup j m = if String.eqb j k then Some v else match lookup j args with
           | None => lookup j merged | Some (Given v) => Some v | Some (Dflt v) => if has_key j yaml then lookup j merged else Some v end) /\
        (forall v, lookup "searcher_kwargs" args = Some (Given (VDict v)) ->
           exists y, match lookup "searcher_kwargs" yaml with Some w => w = VDict y | None => y = [] end /\ lookup "searcher_kwargs" m = Some (VDict (update y v))) /\
        (lookup "searcher_kwargs" args = None -> lookup "searcher_kwargs" m = lookup "searcher_kwargs" merged)).
      { intros v H'. destruct (IH N2 _ _ _ H') as (A & B & C & D). split; [intros; apply A, set_key_nodup; auto|]. split.
        { intros j NJ. rewrite B by exact NJ. rewrite lookup_set_key. destruct (String.eqb_spec j k) as [->|_]; [rewrite L; reflexivity|reflexivity]. }
        split; [exact C|]. intros X. rewrite (D X), lookup_set_key. destruct (String.eqb_spec "searcher_kwargs" k) as [E0|_]; [congruence|reflexivity]. }
      assert (K : String.eqb "searcher_kwargs" k = false) by (apply String.eqb_neq; congruence).
      destruct a as [v|v].
      * destruct (has_key k yaml) eqn:HK.
        { destruct (IH N2 _ _ _ H) as (A & B & C & D). split; [exact A|]. split.
          { intros j NJ. rewrite B by exact NJ. cbn [lookup]. destruct (String.eqb_spec j k) as [->|_]; [rewrite L, HK; reflexivity|reflexivity]. }
          cbn [lookup]. rewrite K. split; [exact C|exact D]. }
        destruct (SET v H) as (A & B & C & D). split; [exact A|]. split; [|cbn [lookup]; rewrite K; split; [exact C|exact D]].
        intros j NJ. rewrite (B j NJ). cbn [lookup]. destruct (String.eqb_spec j k) as [->|_]; [rewrite HK; reflexivity|reflexivity].
      * destruct (SET v H) as (A & B & C & D). split; [exact A|]. split; [|cbn [lookup]; rewrite K; split; [exact C|exact D]].
        intros j NJ. rewrite (B j NJ). cbn [lookup]. destruct (String.eqb j k); reflexivity.
Qed.
Lemma assign_spec d : NoDup (map fst d) -> forall attrs a, assign_all d attrs = Ok a ->
  map fst a = map fst attrs /\ (forall k, lookup k a = match lookup k d with Some v => Some (Some v) | None => lookup k attrs end) /\
  (forall k, In k (map fst d) -> In k (map fst attrs)).
Proof.
  induction d as [|(k, v) d IH]; intros N attrs a H; [injection H as <-; split; [reflexivity|split; [reflexivity|intros k []]]|].
  inversion N as [|? ? N1 N2]; subst. cbn [assign_all] in H. destruct (has_key k attrs) eqn:HK; [|discriminate]. apply has_key_iff in HK.
  destruct (IH N2 _ _ H) as (A & B & C). rewrite (set_key_same k (Some v) attrs HK) in *. split; [exact A|]. split.
  - intros j. rewrite B, lookup_set_key. cbn [lookup]. destruct (String.eqb_spec j k) as [->|_]; [|reflexivity].
    assert (L : lookup k d = None) by (apply lookup_None; exact N1). rewrite L. reflexivity.
  - intros j [<-|I]; [exact HK|apply C, I].
Qed.
Lemma all_set_spec a : forall st, all_set a = Some st -> map fst st = map fst a /\ forall k, lookup k st = match lookup k a with Some (Some v) => Some v | _ => None end.
Proof.
  induction a as [|(k, [v|]) a IH]; intros st H; [injection H as <-; auto| |discriminate]. cbn [all_set] in H.
  destruct (all_set a) as [d|]; [|discriminate]. injection H as <-. destruct (IH d eq_refl) as (A & B). split; [cbn [map fst]; f_equal; exact A|].
  intros j. cbn [lookup]. destruct (String.eqb j k); [reflexivity|apply B].
Qed.

(** ** The caller's arguments *)
Lemma local_ok kw args : NoDup (map fst kw) -> local_args kw = Ok args ->
  NoDup (map fst args) /\
  (forall k, In k attributes -> k <> "searcher_kwargs" -> exists d, lookup k parameters = Some d /\
     ((exists v, given kw k v /\ lookup k args = Some (Given v)) \/ ((forall v, ~ given kw k v) /\ lookup k args = Some (Dflt d)))) /\
  (lookup "run_args" args = Some (match lookup "run_args" kw with Some v => Given v | None => Dflt VNone end)) /\
  exists f, lookup "searcher_kwargs" args = Some (Given (VDict f)) /\ NoDup (map fst f) /\ forall k, lookup k f = option_given kw k.
Proof.
  intros NK H. unfold local_args in H.
  set (kwargs := filter (fun kv => negb (has_key (fst kv) parameters)) kw) in *.
  assert (LK : forall k, lookup k kwargs = if has_key k parameters then None else lookup k kw).
  { intros k. unfold kwargs. rewrite (lookup_filter (fun k => negb (has_key k parameters)) kw k). destruct (has_key k parameters); reflexivity. }
  destruct (has_key "working_directory" kwargs); [discriminate|].
  set (base := map (fun kd => (fst kd, match lookup (fst kd) kw with Some v => Given v | None => Dflt (snd kd) end)) parameters) in *.
  assert (LB : forall k, lookup k base = match lookup k parameters with Some d => Some (match lookup k kw with Some v => Given v | None => Dflt d end) | None => None end).
  { intros k. unfold base. rewrite (lookup_map (fun kd => match lookup (fst kd) kw with Some v => Given v | None => Dflt (snd kd) end) parameters k). reflexivity. }
  assert (KB : map fst base = map fst parameters). { unfold base. rewrite map_map. apply map_ext. reflexivity. }
  set (base' := match lookup "budget" kwargs with Some v => set_key "max_cost_total" (Given v) base | None => base end) in *.
  assert (KB' : map fst base' = map fst parameters).
  { unfold base'. destruct (lookup "budget" kwargs); [|exact KB]. rewrite set_key_same; [exact KB|]. rewrite KB. cbn. auto 20. }
  assert (LB' : forall k, lookup k base' = if String.eqb k "max_cost_total" then match lookup "budget" kw with Some v => Some (Given v) | None => lookup k base end else lookup k base).
  { intros k. unfold base'. rewrite LK. cbn [has_key lookup parameters String.eqb Ascii.eqb Bool.eqb]. destruct (lookup "budget" kw) as [b|]; [|destruct (String.eqb k "max_cost_total"); reflexivity].
    rewrite lookup_set_key. reflexivity. }
  assert (Hargs : args = base' ++ [("searcher_kwargs", Given (VDict (remove_key "budget" kwargs)))]) by congruence. clear H.
  assert (NP : NoDup (map fst parameters ++ ["searcher_kwargs"])).
  { cbn. repeat (constructor; [cbn; intuition discriminate|]). constructor. }
  split; [rewrite Hargs, map_app, KB'; exact NP|]. split; [|split].
  - intros k K NS. assert (HP : exists d, lookup k parameters = Some d).
    { cbn in K. destruct K as [<-|[<-|[<-|[<-|[<-|[<-|[<-|[<-|[<-|[<-|[<-|[<-|[<-|[<-|[<-|[<-|[<-|[]]]]]]]]]]]]]]]]]]; try (eexists; reflexivity). contradiction. }
    destruct HP as (d & HP). exists d. split; [exact HP|]. rewrite Hargs, lookup_app, LB', LB, HP. unfold given.
    destruct (String.eqb k "max_cost_total") eqn:KE.
    + destruct (lookup "budget" kw) as [b|]; [left; exists b; split; reflexivity|].
      destruct (lookup k kw) as [v|]; [left; exists v; split; reflexivity|]. right. split; [intros v; discriminate|reflexivity].
    + destruct (lookup k kw) as [v|]; [left; exists v; split; reflexivity|]. right. split; [intros v; discriminate|reflexivity].
  - rewrite Hargs, lookup_app, LB', LB. cbn [String.eqb Ascii.eqb Bool.eqb lookup parameters]. reflexivity.
  - exists (remove_key "budget" kwargs). split; [|split].
    + rewrite Hargs, lookup_app, LB', LB. reflexivity.
    + apply remove_key_nodup. unfold kwargs. apply filter_nodup, NK.
    + intros k. rewrite lookup_remove_key, LK. unfold option_given. destruct (has_key k parameters); cbn [orb]; destruct (String.eqb k "budget"); reflexivity.
Qed.

Lemma settle kw ys args m a st : NoDup (map fst kw) -> local_args kw = Ok args -> NoDup (map fst m) ->
  (forall k, k <> "searcher_kwargs" -> lookup k m = match lookup k args with
     | None => lookup k ys | Some (Given v) => Some v | Some (Dflt v) => match lookup k ys with Some w => Some w | None => Some v end end) ->
  (forall f, lookup "searcher_kwargs" args = Some (Given (VDict f)) -> NoDup (map fst f) -> exists d, lookup "searcher_kwargs" m = Some (VDict d) /\
     forall k, lookup k d = match lookup k f with Some v => Some v | None => yaml_option ys k end) ->
  assign_all (remove_key "run_args" m) (map (fun k => (k, None)) attributes) = Ok a -> all_set a = Some st -> settles kw ys st.
Proof.
  intros NK HL NM HM HS HA HT. destruct (local_ok kw args NK HL) as (NA & LO & LR & f & LF & NF & FO).
  destruct (assign_spec _ (remove_key_nodup "run_args" m NM) _ _ HA) as (A1 & A2 & _). destruct (all_set_spec a st HT) as (T1 & T2).
  assert (LST : forall k, k <> "run_args" -> In k attributes -> lookup k st = lookup k m).
  { intros k NR K. rewrite T2, A2, lookup_remove_key. destruct (String.eqb_spec k "run_args") as [?|_]; [contradiction|].
    destruct (lookup k m) as [v|]; [reflexivity|].
    destruct (lookup k (map (fun k => (k, @None pyval)) attributes)) as [w|] eqn:L; [|reflexivity]. apply lookup_In in L. apply in_map_iff in L. destruct L as (j & [= _ <-] & _). reflexivity. }
  split; [rewrite T1, A1, map_map; cbn [fst]; apply map_id|]. split.
  - intros k K NS. destruct (LO k K NS) as (d & LP & CASES). assert (NR : k <> "run_args") by (intros ->; cbn in K; intuition discriminate).
    rewrite (LST k NR K), (HM k NS). destruct CASES as [(v & G & ->)|(G & ->)]; [exists v; split; [reflexivity|apply from_code, G]|].
    destruct (lookup k ys) as [w|] eqn:LY; [exists w; split; [reflexivity|apply from_yaml; auto]|]. exists d. split; [reflexivity|]. apply from_default; auto.
  - destruct (HS f LF NF) as (d & LD & LDK). exists d. rewrite LST; [|discriminate|cbn; auto 20]. split; [exact LD|]. intros k. rewrite LDK, FO. reflexivity.
Qed.
Lemma settings_l E kw st : NoDup (map fst kw) -> run_settings E kw = Ok st -> exists ys, yaml_of E kw ys /\ settles kw ys st.
Proof.
  intros NK H. unfold run_settings in H. destruct (local_args kw) as [args|] eqn:HL; cbn [bind] in H; [|discriminate].
  destruct (local_ok kw args NK HL) as (NA & _ & LR & f & LF & NF & _).
  assert (PLAIN : bind (Ok (plain args)) (fun d => bind (assign_all (remove_key "run_args" d) (map (fun k => (k, None)) attributes)) (fun attrs =>
      match all_set attrs with None => Err ValueError | Some st => bind (check_essential E st) (fun _ => Ok st) end)) = Ok st -> settles kw [] st).
  { cbn [bind]. intros H'. destruct (assign_all _ _) as [a|] eqn:HA; cbn [bind] in H'; [|discriminate]. destruct (all_set a) as [st'|] eqn:HT; [|discriminate].
    destruct (check_essential E st') as [[]|]; cbn [bind] in H'; [|discriminate]. injection H' as ->.
    destruct (plain_spec args NA []) as (P1 & P2). fold (plain args) in P1, P2.
    eapply (settle kw [] args (plain args) a st NK HL); eauto.
    - apply P1. constructor.
    - intros k _. rewrite P2. destruct (lookup k args) as [[v|v]|]; reflexivity.
    - intros f' LF' _. rewrite P2, LF'. exists f'. split; [reflexivity|]. intros k. destruct (lookup k f'); reflexivity. }
  unfold settings_init in H. rewrite LR in H. destruct (lookup "run_args" kw) as [p|] eqn:LP.
  - assert (D : p = VNone \/ p <> VNone) by (destruct p; auto; right; discriminate). destruct D as [->|NP].
    { exists []. split; [apply no_yaml; auto|apply PLAIN, H]. }
    assert (H' : bind (bind (e_file E p) (fun c => bind (yaml_settings E c) (fun y => merge args y))) (fun d =>
        bind (assign_all (remove_key "run_args" d) (map (fun k => (k, None)) attributes)) (fun attrs =>
        match all_set attrs with None => Err ValueError | Some st => bind (check_essential E st) (fun _ => Ok st) end)) = Ok st) by (destruct p; try exact H; contradiction).
    clear H. destruct (e_file E p) as [c|] eqn:EF; cbn [bind] in H'; [|discriminate]. destruct (yaml_settings E c) as [ys|] eqn:EY; cbn [bind] in H'; [|discriminate].
    destruct (merge args ys) as [m|] eqn:EM; cbn [bind] in H'; [|discriminate].
    destruct (assign_all _ _) as [a|] eqn:HA; cbn [bind] in H'; [|discriminate]. destruct (all_set a) as [st'|] eqn:HT; [|discriminate].
    destruct (check_essential E st') as [[]|]; cbn [bind] in H'; [|discriminate]. injection H' as ->.
    exists ys. split; [eapply a_yaml; eauto|]. destruct (merge_spec args NA ys ys m EM) as (M1 & M2 & M3 & _).
    eapply (settle kw ys args m a st NK HL); eauto.
    + apply M1. eapply yaml_nodup; eauto.
    + intros k NS. rewrite M2 by exact NS. destruct (lookup k args) as [[v|v]|]; try reflexivity. unfold has_key. destruct (lookup k ys); reflexivity.
    + intros f' LF' NF'. destruct (M3 f' LF') as (y & HY & LM). exists (update y f'). split; [exact LM|]. intros k. rewrite lookup_update by exact NF'.
      destruct (lookup k f'); [reflexivity|]. unfold yaml_option. destruct (lookup "searcher_kwargs" ys) as [w|]; subst; reflexivity.
  - exists []. split; [apply no_yaml; auto|apply PLAIN, H].
Qed.
(** What must be there. *)
Lemma essential_l E kw st : run_settings E kw = Ok st ->
  (exists v, lookup "run_pipeline" st = Some v /\ truthy v = true) /\ (exists v, lookup "root_directory" st = Some v /\ truthy v = true) /\
  (exists v, (lookup "pipeline_space" st = Some v /\ truthy v = true) \/ (lookup "searcher" st = Some v /\ e_optimizer E v = true) \/ (lookup "searcher" st = None /\ e_optimizer E VNone = true)) /\
  (exists v, (lookup "max_evaluations_total" st = Some v \/ lookup "max_cost_total" st = Some v) /\ truthy v = true).
Proof.
  intros H. assert (C : check_essential E st = Ok tt).
  { unfold run_settings, settings_init in H. destruct (local_args kw) as [args|]; cbn [bind] in H; [|discriminate].
    destruct (match lookup "run_args" args with Some _ => _ | None => _ end) as [d|]; cbn [bind] in H; [|discriminate].
    destruct (assign_all _ _) as [a|]; cbn [bind] in H; [|discriminate]. destruct (all_set a) as [st'|]; [|discriminate].
    destruct (check_essential E st') as [[]|] eqn:CE; cbn [bind] in H; [|discriminate]. injection H as <-. exact CE. }
  unfold check_essential in C.
  assert (G : forall k, truthy (match lookup k st with Some v => v | None => VNone end) = true -> exists v, lookup k st = Some v /\ truthy v = true).
  { intros k. destruct (lookup k st) as [v|]; [eauto|discriminate]. }
  destruct (truthy (match lookup "run_pipeline" st with Some v => v | None => VNone end)) eqn:T1; cbn [negb] in C; [|discriminate].
  destruct (truthy (match lookup "root_directory" st with Some v => v | None => VNone end)) eqn:T2; cbn [negb] in C; [|discriminate].
  destruct (truthy (match lookup "pipeline_space" st with Some v => v | None => VNone end)) eqn:T3; cbn [negb andb] in C.
  - destruct (G _ T3) as (v3 & G3). split; [auto|]. split; [auto|]. split; [exists v3; auto|].
    destruct (truthy (match lookup "max_evaluations_total" st with Some v => v | None => VNone end)) eqn:T4; cbn [negb andb] in C; [destruct (G _ T4) as (v & A & B); exists v; auto|].
    destruct (truthy (match lookup "max_cost_total" st with Some v => v | None => VNone end)) eqn:T5; cbn [negb andb] in C; [destruct (G _ T5) as (v & A & B); exists v; auto|discriminate].
  - destruct (e_optimizer E (match lookup "searcher" st with Some v => v | None => VNone end)) eqn:T6; cbn [negb] in C; [|discriminate].
    split; [auto|]. split; [auto|]. split; [destruct (lookup "searcher" st) as [v|]; [exists v; auto|exists VNone; auto]|].
    destruct (truthy (match lookup "max_evaluations_total" st with Some v => v | None => VNone end)) eqn:T4; cbn [negb andb] in C; [destruct (G _ T4) as (v & A & B); exists v; auto|].
    destruct (truthy (match lookup "max_cost_total" st with Some v => v | None => VNone end)) eqn:T5; cbn [negb andb] in C; [destruct (G _ T5) as (v & A & B); exists v; auto|discriminate].
Qed.
