(** The searcher, its arguments, the directory, and spaces of ConfigSpace. *)
From Verif Require Import Set_spec Py_proofs Set_flat_proofs Set_proofs.
From Coq Require Import Ascii Permutation.
From Verif Require Import Enc_proofs.
Local Notation length := List.length.

Section Decide.
  Context {T : Type}.
  Lemma space_in (l : list (string * param T)) s : search_space l = Ok s -> forall kp, In kp s <-> In kp l.
  Proof.
    intros H kp. assert (E : s = sort_names l). { unfold search_space in H. destruct (s_fidelities (sort_names l)) as [|a [|b t]]; congruence. }
    rewrite E. split; apply Permutation_in; [symmetry|]; apply sort_perm.
  Qed.
  Lemma s_prior_iff (l : list (string * param T)) s : search_space l = Ok s -> s_prior s = true <-> some_prior l.
  Proof.
    intros H. unfold s_prior, some_prior. rewrite existsb_exists. split.
    - intros ((k, p) & I & P). exists k, p. rewrite <- (space_in l s H). auto.
    - intros (k & p & I & P). exists (k, p). rewrite (space_in l s H). auto.
  Qed.
  Lemma s_fid_iff (l : list (string * param T)) s : search_space l = Ok s -> (s_fidelity s <> None) <-> some_fidelity l.
  Proof.
    intros H. unfold s_fidelity, s_fidelities, some_fidelity. split.
    - intros N. destruct (filter (fun kv => p_fid (snd kv)) s) as [|(k, p) t] eqn:F; [contradiction|].
      assert (I : In (k, p) (filter (fun kv => p_fid (snd kv)) s)) by (rewrite F; left; reflexivity). apply filter_In in I. exists k, p. rewrite <- (space_in l s H). exact I.
    - intros (k & p & I & P). rewrite <- (space_in l s H) in I. assert (J : In (k, p) (filter (fun kv => p_fid (snd kv)) s)) by (apply filter_In; auto).
      destruct (filter (fun kv => p_fid (snd kv)) s); [destruct J|discriminate].
  Qed.
  Lemma decide_l (l : list (string * param T)) s : search_space l = Ok s ->
    (some_prior l -> some_fidelity l -> decide s = "priorband") /\ (some_prior l -> ~ some_fidelity l -> decide s = "pibo") /\
    (~ some_prior l -> some_fidelity l -> decide s = "hyperband") /\ (~ some_prior l -> ~ some_fidelity l -> decide s = "bayesian_optimization").
  Proof.
    intros H. rewrite <- (s_prior_iff l s H), <- (s_fid_iff l s H). unfold decide.
    destruct (s_prior s), (s_fidelity s) as [k|]; repeat split; intros A B; try reflexivity; exfalso; try (apply A; congruence); try (apply B; congruence); try discriminate; contradiction.
  Qed.
  Lemma decide_known (s : space T) : lookup (decide s) default_searchers = Some (decide s) /\ In (decide s) mapping.
  Proof. unfold decide. destruct (s_prior s), (s_fidelity s); split; try reflexivity; cbn; auto 20. Qed.
End Decide.

Section Searcher.
  Context (defaults : string -> dict) (user_file : pyval -> res (dict * string)) (name_of : pyval -> res pyval).
  Context {T : Type} (s : space T) (path : pyval -> bool).

  Lemma find_default v : v = VNone \/ v = VStr "default" -> path VNone = false ->
    find_searcher defaults user_file s path v = Ok (("strategy", VStr (decide s)) :: defaults (decide s), decide s, true).
  Proof.
    intros [->| ->] P; unfold find_searcher; [rewrite P|]; cbn [String.eqb Ascii.eqb Bool.eqb has_key lookup default_searchers orb andb negb]; rewrite ?andb_false_r;
      unfold searcher_data; rewrite (proj1 (decide_known s)); reflexivity.
  Qed.
  Lemma apply_chosen kwargs c : apply_kwargs name_of true kwargs c = Ok c.
  Proof. induction kwargs as [|(k, v) kwargs IH]; [reflexivity|]. cbn [apply_kwargs]. exact IH. Qed.

  (** [c'] is [c] with [kwargs], up to equality. *)
  Lemma apply_given kwargs : NoDup (map fst kwargs) -> forall c c', apply_kwargs name_of false kwargs c = Ok c' ->
    forall k, match lookup k kwargs with
              | Some v => exists w, lookup k c' = Some w /\ (w = v \/ lookup k c = Some w /\ py_eqb w v = true)
              | None => lookup k c' = lookup k c
              end.
  Proof.
    induction kwargs as [|(k0, v0) kwargs IH]; intros N c c' H k; [injection H as <-; reflexivity|].
    inversion N as [|? ? N1 N2]; subst. cbn [apply_kwargs] in H. destruct (get_value name_of v0); cbn [bind] in H; [|discriminate].
    specialize (IH N2 _ _ H k). cbn [lookup]. assert (L : lookup k0 kwargs = None) by (apply lookup_None; exact N1).
    destruct (String.eqb_spec k k0) as [->|NE].
    - rewrite L in IH. rewrite IH. destruct (lookup k0 c) as [w|] eqn:LC.
      + destruct (py_eqb w v0) eqn:PE; [exists w; split; [exact LC|right; auto]|]. exists v0. rewrite lookup_set_key, String.eqb_refl. auto.
      + exists v0. rewrite lookup_set_key, String.eqb_refl. auto.
    - assert (SAME : lookup k (if match lookup k0 c with Some w => py_eqb w v0 | None => false end then c else set_key k0 v0 c) = lookup k c).
      { destruct (match lookup k0 c with Some w => py_eqb w v0 | None => false end); [reflexivity|]. rewrite lookup_set_key. destruct (String.eqb_spec k k0); [contradiction|reflexivity]. }
      destruct (lookup k kwargs) as [v|].
      + destruct IH as (w & LW & [->|(LC & PE)]); [exists v; auto|]. exists w. assert (LC' : lookup k c = Some w) by (rewrite <- SAME; exact LC). auto.
      + etransitivity; [exact IH|exact SAME].
  Qed.
  Definition reserved (k : string) : Prop :=
    In k ["searcher_info"; "pipeline_space"; "max_cost_total"; "ignore_errors"; "loss_value_on_error"; "cost_value_on_error"; "searcher"].
  Lemma reserved_dec kwargs : existsb (fun kv : string * pyval => smem (fst kv) ["searcher_info"; "pipeline_space"; "max_cost_total"; "ignore_errors"; "loss_value_on_error"; "cost_value_on_error"; "searcher"]) kwargs = true
    <-> exists k, reserved k /\ In k (map fst kwargs).
  Proof.
    rewrite existsb_exists. split.
    - intros ((k, v) & I & M). cbn [fst] in M. apply smem_In in M. exists k. split; [exact M|]. apply (in_map fst) in I. exact I.
    - intros (k & R & I). apply in_map_iff in I. destruct I as ((k', v) & <- & I). exists (k', v). split; [exact I|]. apply smem_In. exact R.
  Qed.

  Definition finish (c : dict) (chosen : bool) (budget loss cost ign : pyval) (kwargs : dict) : res (string * dict * bool) :=
    let c := match lookup "algorithm" c with Some a => set_key "strategy" a (remove_key "algorithm" c) | None => c end in
    match lookup "strategy" c with
    | None => Err KeyError
    | Some alg =>
        bind (apply_kwargs name_of chosen kwargs (remove_key "strategy" c)) (fun c =>
        bind (get_value name_of (VDict c)) (fun _ =>
        let c := update c [("loss_value_on_error", loss); ("cost_value_on_error", cost); ("ignore_errors", ign)] in
        match alg with
        | VStr a =>
            if smem a mapping then
              if has_key "budget" c || has_key "pipeline_space" c then Err TypeError
              else Ok (a, set_key "budget" budget c, chosen)
            else Err ValueError
        | _ => Err ValueError
        end))
    end.
  Lemma run_args_finish searcher budget loss cost ign kwargs : (forall k, In k (map fst kwargs) -> ~ reserved k) ->
    run_args defaults user_file name_of s path searcher budget loss cost ign kwargs =
    bind (find_searcher defaults user_file s path searcher) (fun '(c, _, chosen) => finish c chosen budget loss cost ign kwargs).
  Proof.
    intros R. unfold run_args. destruct (existsb _ kwargs) eqn:X; [|reflexivity]. apply reserved_dec in X. destruct X as (k & A & B). exfalso. exact (R k B A).
  Qed.
  Lemma run_args_ok searcher budget loss cost ign kwargs r : run_args defaults user_file name_of s path searcher budget loss cost ign kwargs = Ok r ->
    (forall k, In k (map fst kwargs) -> ~ reserved k) /\ exists c n chosen, find_searcher defaults user_file s path searcher = Ok (c, n, chosen) /\
      finish c chosen budget loss cost ign kwargs = Ok r.
  Proof.
    intros H. assert (R : forall k, In k (map fst kwargs) -> ~ reserved k).
    { intros k I RK. unfold run_args in H. rewrite (proj2 (reserved_dec kwargs)) in H by eauto. discriminate. }
    split; [exact R|]. rewrite run_args_finish in H by exact R. destruct (find_searcher _ _ _ _ _) as [((c, n), ch)|]; cbn [bind] in H; [|discriminate]. eauto.
  Qed.
  (** The arguments of the algorithm: those of the run, and the others by [rest]. *)
  Lemma finish_ok c chosen budget loss cost ign kwargs a c' ch : NoDup (map fst kwargs) -> finish c chosen budget loss cost ign kwargs = Ok (a, c', ch) ->
    ch = chosen /\ In a mapping /\
    (match lookup "algorithm" c with Some x => x = VStr a | None => lookup "strategy" c = Some (VStr a) end) /\
    lookup "budget" c' = Some budget /\ lookup "loss_value_on_error" c' = Some loss /\ lookup "cost_value_on_error" c' = Some cost /\ lookup "ignore_errors" c' = Some ign /\
    forall k, ~ In k ["budget"; "loss_value_on_error"; "cost_value_on_error"; "ignore_errors"; "strategy"; "algorithm"] ->
      if chosen then lookup k c' = lookup k c else
      match lookup k kwargs with
      | Some v => exists w, lookup k c' = Some w /\ (w = v \/ lookup k c = Some w /\ py_eqb w v = true)
      | None => lookup k c' = lookup k c
      end.
  Proof.
    intros N H. unfold finish in H. set (c0 := match lookup "algorithm" c with Some x => set_key "strategy" x (remove_key "algorithm" c) | None => c end) in *.
    assert (L0 : forall k, ~ In k ["strategy"; "algorithm"] -> lookup k c0 = lookup k c).
    { intros k K. unfold c0. destruct (lookup "algorithm" c) as [x|]; [|reflexivity]. rewrite lookup_set_key, lookup_remove_key.
      destruct (String.eqb_spec k "strategy") as [->|_]; [exfalso; apply K; cbn; auto|]. destruct (String.eqb_spec k "algorithm") as [->|_]; [exfalso; apply K; cbn; auto|reflexivity]. }
    assert (S0 : lookup "strategy" c0 = match lookup "algorithm" c with Some x => Some x | None => lookup "strategy" c end).
    { unfold c0. destruct (lookup "algorithm" c) as [x|]; [|reflexivity]. rewrite lookup_set_key. reflexivity. }
    destruct (lookup "strategy" c0) as [alg|] eqn:LS; [|discriminate].
    destruct (apply_kwargs name_of chosen kwargs (remove_key "strategy" c0)) as [c1|] eqn:AK; cbn [bind] in H; [|discriminate].
    destruct (get_value name_of (VDict c1)); cbn [bind] in H; [|discriminate].
    destruct alg as [|b|z|f|st|l|l|d|o]; try discriminate. destruct (smem st mapping) eqn:M; [|discriminate]. apply smem_In in M.
    destruct (has_key "budget" _ || has_key "pipeline_space" _)%bool; [discriminate|].
    assert (E1 : a = st) by congruence. assert (E2 : ch = chosen) by congruence.
    assert (E3 : c' = set_key "budget" budget (set_key "ignore_errors" ign (set_key "cost_value_on_error" cost (set_key "loss_value_on_error" loss c1)))) by (cbn [update fold_left fst snd] in H; congruence). clear H.
    assert (E4 : a = st) by exact E1. rewrite E1.
    split; [exact E2|]. split; [exact M|]. split; [destruct (lookup "algorithm" c); congruence|].
    rewrite E3. split; [rewrite !lookup_set_key; reflexivity|]. split; [rewrite !lookup_set_key; reflexivity|]. split; [rewrite !lookup_set_key; reflexivity|].
    split; [rewrite !lookup_set_key; reflexivity|]. intros k K.
    assert (LK : lookup k (set_key "budget" budget (set_key "ignore_errors" ign (set_key "cost_value_on_error" cost (set_key "loss_value_on_error" loss c1)))) = lookup k c1).
    { rewrite !lookup_set_key. cbn [In] in K. destruct (String.eqb_spec k "budget") as [->|_]; [exfalso; auto|]. destruct (String.eqb_spec k "ignore_errors") as [->|_]; [exfalso; apply K; auto|].
      destruct (String.eqb_spec k "cost_value_on_error") as [->|_]; [exfalso; apply K; auto|]. destruct (String.eqb_spec k "loss_value_on_error") as [->|_]; [exfalso; apply K; auto|reflexivity]. }
    assert (LC : lookup k (remove_key "strategy" c0) = lookup k c).
    { rewrite lookup_remove_key. destruct (String.eqb_spec k "strategy") as [->|_]; [exfalso; apply K; cbn; auto 10|]. apply L0. cbn [In] in *. intros [?|[?|[]]]; apply K; auto 10. }
    rewrite LK. destruct chosen.
    - rewrite apply_chosen in AK. injection AK as <-. exact LC.
    - pose proof (apply_given kwargs N _ _ AK k) as AG. destruct (lookup k kwargs); [|rewrite AG; exact LC]. destruct AG as (w & A & [B|(B & C)]); exists w; [auto|]. rewrite LC in B. auto.
  Qed.
End Searcher.

Section Explicit.
  Context (defaults : string -> dict) (user_file : pyval -> res (dict * string)) (name_of : pyval -> res pyval).
  Context {T : Type} (s : space T) (path : pyval -> bool).
  Lemma known_iff n : has_key n default_searchers = true <-> In n (map fst default_searchers).
  Proof. apply has_key_iff. Qed.
  Lemma known_data n : In n (map fst default_searchers) -> exists st, searcher_data defaults n = Ok (("strategy", VStr st) :: defaults n, n).
  Proof.
    intros I. apply has_key_iff in I. unfold has_key in I. unfold searcher_data. destruct (lookup n default_searchers) as [st|]; [eauto|discriminate].
  Qed.
  Lemma find_explicit v look : configured defaults user_file path v look -> forall c n ch, find_searcher defaults user_file s path v = Ok (c, n, ch) ->
    ch = false /\ forall k, k <> "strategy" -> k <> "name" -> lookup k c = look k.
  Proof.
    intros H c n ch F. destruct H as [m I|v c0 n0 P K U|d st P N L I].
    - unfold find_searcher in F. pose proof (proj2 (known_iff m) I) as HK. rewrite HK in F. cbn [orb negb] in F. rewrite andb_false_r in F.
      assert (ND : String.eqb m "default" = false). { destruct (String.eqb_spec m "default") as [->|_]; [|reflexivity]. cbn in I. intuition discriminate. }
      rewrite ND in F. destruct (known_data m I) as (st & D). rewrite D in F. cbn [bind] in F. injection F as <- _ <-. split; [reflexivity|].
      intros k K _. cbn [lookup]. destruct (String.eqb_spec k "strategy"); [contradiction|reflexivity].
    - unfold find_searcher in F. rewrite P in F.
      assert (X : (match v with VStr n => has_key n default_searchers || String.eqb n "default" | _ => false end) = false).
      { destruct v; try reflexivity. destruct (K s0 eq_refl) as (K1 & K2). apply orb_false_iff. split; [|apply String.eqb_neq, K1].
        destruct (has_key s0 default_searchers) eqn:HK; [|reflexivity]. apply known_iff in HK. contradiction. }
      rewrite X in F. cbn [negb andb] in F. rewrite U in F. cbn [bind] in F. injection F as <- _ <-. auto.
    - unfold find_searcher in F. rewrite P, L in F. cbn [andb] in F. destruct (known_data st I) as (st' & D). rewrite D in F. cbn [bind] in F.
      assert (LU : forall k, k <> "strategy" -> lookup k (update (("strategy", VStr st') :: defaults st) d) = match lookup k d with Some v => Some v | None => lookup k (defaults st) end).
      { intros k K. rewrite lookup_update by exact N. cbn [lookup]. destruct (String.eqb_spec k "strategy"); [contradiction|reflexivity]. }
      destruct (lookup "name" (update (("strategy", VStr st') :: defaults st) d)) as [nm|] eqn:LN.
      + destruct nm; try discriminate. injection F as <- _ <-. split; [reflexivity|]. intros k K K'. rewrite lookup_remove_key. destruct (String.eqb_spec k "name"); [contradiction|]. apply LU, K.
      + injection F as <- _ <-. split; [reflexivity|]. intros k K _. apply LU, K.
  Qed.
  Lemma strategy_ok n a : strategy_of n a -> lookup n default_searchers = Some a /\ In a mapping.
  Proof.
    intros [(-> & ->)|(-> & I)]; [split; [reflexivity|cbn; auto 20]|]. cbn in I.
    destruct I as [<-|[<-|[<-|[<-|[<-|[<-|[<-|[<-|[<-|[<-|[<-|[]]]]]]]]]]]]; (split; [reflexivity|cbn; auto 20]).
  Qed.
  Lemma named_l n a budget loss cost ign : strategy_of n a -> lookup "algorithm" (defaults n) = None ->
    (exists w, get_value name_of (VDict (remove_key "strategy" (defaults n))) = Ok w) -> (forall k, k = "budget" \/ k = "pipeline_space" -> lookup k (defaults n) = None) ->
    exists c, run_args defaults user_file name_of s path (VStr n) budget loss cost ign [] = Ok (a, c, false).
  Proof.
    intros ST AL (w & GV) NB. destruct (strategy_ok n a ST) as (L & M).
    rewrite run_args_finish by (intros k []). assert (I : In n (map fst default_searchers)) by (apply lookup_In in L; apply (in_map fst) in L; exact L).
    assert (F : find_searcher defaults user_file s path (VStr n) = Ok (("strategy", VStr a) :: defaults n, n, false)).
    { unfold find_searcher. pose proof (proj2 (known_iff n) I) as HK. rewrite HK. cbn [orb negb]. rewrite andb_false_r.
      assert (ND : String.eqb n "default" = false). { destruct (String.eqb_spec n "default") as [->|_]; [|reflexivity]. cbn in I. intuition discriminate. }
      rewrite ND. unfold searcher_data. rewrite L. reflexivity. }
    rewrite F. cbn [bind]. unfold finish. cbn [lookup String.eqb Ascii.eqb Bool.eqb]. rewrite AL. cbn [lookup String.eqb Ascii.eqb Bool.eqb remove_key apply_kwargs bind].
    rewrite GV. cbn [bind]. apply smem_In in M. rewrite M.
    set (c := update (remove_key "strategy" (defaults n)) [("loss_value_on_error", loss); ("cost_value_on_error", cost); ("ignore_errors", ign)]).
    assert (LK : forall k, k = "budget" \/ k = "pipeline_space" -> has_key k c = false).
    { intros k K. unfold has_key, c. cbn [update fold_left fst snd]. rewrite !lookup_set_key, lookup_remove_key, (NB k K). destruct K as [-> | ->]; reflexivity. }
    rewrite (LK "budget"), (LK "pipeline_space") by auto. cbn [orb]. eauto.
  Qed.
  Lemma explicit_l v look budget loss cost ign kwargs a c' ch : configured defaults user_file path v look -> NoDup (map fst kwargs) ->
    run_args defaults user_file name_of s path v budget loss cost ign kwargs = Ok (a, c', ch) ->
    ch = false /\ In a mapping /\
    lookup "budget" c' = Some budget /\ lookup "loss_value_on_error" c' = Some loss /\ lookup "cost_value_on_error" c' = Some cost /\ lookup "ignore_errors" c' = Some ign /\
    forall k, ~ In k ["budget"; "loss_value_on_error"; "cost_value_on_error"; "ignore_errors"; "strategy"; "algorithm"; "name"] ->
      match lookup k kwargs with
      | Some x => exists w, lookup k c' = Some w /\ (w = x \/ look k = Some w /\ py_eqb w x = true)
      | None => lookup k c' = look k
      end.
  Proof.
    intros C N H. destruct (run_args_ok _ _ _ _ _ _ _ _ _ _ _ _ H) as (_ & c & n & ch0 & F & FI).
    destruct (find_explicit v look C c n ch0 F) as (-> & LK). destruct (finish_ok _ _ _ _ _ _ _ _ _ _ _ N FI) as (E1 & M & _ & B1 & B2 & B3 & B4 & R).
    repeat (split; [assumption|]). intros k K. assert (K6 : ~ In k ["budget"; "loss_value_on_error"; "cost_value_on_error"; "ignore_errors"; "strategy"; "algorithm"]) by (cbn [In] in *; tauto).
    assert (LKK : lookup k c = look k) by (apply LK; intros ->; apply K; cbn; auto 20). specialize (R k K6). cbv iota in R.
    destruct (lookup k kwargs); rewrite <- ?LKK; exact R.
  Qed.
  Lemma default_l v budget loss cost ign kwargs a c' ch : v = VNone \/ v = VStr "default" -> path VNone = false -> (forall n, lookup "algorithm" (defaults n) = None) -> NoDup (map fst kwargs) ->
    run_args defaults user_file name_of s path v budget loss cost ign kwargs = Ok (a, c', ch) ->
    ch = true /\ a = decide s /\
    lookup "budget" c' = Some budget /\ lookup "loss_value_on_error" c' = Some loss /\ lookup "cost_value_on_error" c' = Some cost /\ lookup "ignore_errors" c' = Some ign /\
    forall k, ~ In k ["budget"; "loss_value_on_error"; "cost_value_on_error"; "ignore_errors"; "strategy"; "algorithm"] -> lookup k c' = lookup k (defaults a).
  Proof.
    intros V P AL N H. destruct (run_args_ok _ _ _ _ _ _ _ _ _ _ _ _ H) as (_ & c & n & ch0 & F & FI).
    rewrite (find_default defaults user_file s path v V P) in F. injection F as <- _ <-.
    destruct (finish_ok _ _ _ _ _ _ _ _ _ _ _ N FI) as (E1 & M & ST & B1 & B2 & B3 & B4 & R).
    cbn [lookup String.eqb Ascii.eqb Bool.eqb] in ST. rewrite AL in ST. injection ST as <-. repeat (split; [assumption || reflexivity|]).
    intros k K. rewrite (R k K). cbn [lookup]. destruct (String.eqb_spec k "strategy") as [->|_]; [exfalso; apply K; cbn; auto 20|reflexivity].
  Qed.
End Explicit.

(** ** Directories *)
Lemma app_nil_s (s : string) : (s ++ "")%string = s.
Proof. induction s; cbn; [reflexivity|]. f_equal. exact IHs. Qed.
Lemma app_assoc_s (a b c : string) : ((a ++ b) ++ c)%string = (a ++ (b ++ c))%string.
Proof. induction a; cbn; [reflexivity|]. f_equal. exact IHa. Qed.
Lemma split_free s : forall acc, slash_free s = true -> split_slash s acc = [(acc ++ s)%string].
Proof.
  induction s as [|c s IH]; intros acc H; cbn [split_slash]; [rewrite app_nil_s; reflexivity|]. cbn [slash_free] in H. apply andb_true_iff in H. destruct H as (A & B).
  destruct (Ascii.eqb c "/"); [discriminate|]. rewrite IH by exact B. rewrite app_assoc_s. reflexivity.
Qed.
Lemma components_free p s : slash_free s = true -> p = "task_" \/ p = "dev_" -> components (p ++ s)%string = [(p ++ s)%string].
Proof.
  intros H P. unfold components. rewrite split_free; [|destruct P as [->| ->]; exact H]. cbn [filter]. destruct P as [->| ->]; reflexivity.
Qed.
Definition part (p : string) (str_of : pyval -> string) (id : pyval) : list string := match id with VNone => [] | v => [(p ++ str_of v)%string] end.
Lemma run_dir_parts str_of root task dev : (task <> VNone -> slash_free (str_of task) = true) -> (dev <> VNone -> slash_free (str_of dev) = true) ->
  run_directory str_of root task dev = root ++ part "task_" str_of task ++ part "dev_" str_of dev.
Proof.
  intros HT HD. unfold run_directory.
  assert (A : match task with VNone => root | t => root ++ components ("task_" ++ str_of t)%string end = root ++ part "task_" str_of task).
  { destruct task; cbn [part]; [rewrite app_nil_r; reflexivity|..]; rewrite components_free; auto; apply HT; discriminate. }
  rewrite A. destruct dev; cbn [part]; [rewrite app_nil_r; reflexivity|..]; rewrite components_free; auto; try (rewrite app_assoc; reflexivity); apply HD; discriminate.
Qed.
Lemma app_inj_s (p a b : string) : (p ++ a = p ++ b -> a = b)%string.
Proof. induction p; cbn; [auto|]. intros [= H]. auto. Qed.
Lemma run_directory_l str_of root task dev task' dev' :
  (task <> VNone -> slash_free (str_of task) = true) -> (dev <> VNone -> slash_free (str_of dev) = true) ->
  (task' <> VNone -> slash_free (str_of task') = true) -> (dev' <> VNone -> slash_free (str_of dev') = true) ->
  run_directory str_of root task dev = run_directory str_of root task' dev' -> same_id str_of task task' /\ same_id str_of dev dev'.
Proof.
  intros A B C D H. rewrite !run_dir_parts in H by assumption. apply app_inv_head in H.
  assert (P : forall p v, (v = VNone /\ part p str_of v = []) \/ (v <> VNone /\ part p str_of v = [(p ++ str_of v)%string])).
  { intros p v. destruct v; auto; right; split; auto; discriminate. }
  destruct (P "task_" task) as [(T & PT)|(T & PT)], (P "dev_" dev) as [(E & PE)|(E & PE)], (P "task_" task') as [(T' & PT')|(T' & PT')], (P "dev_" dev') as [(E' & PE')|(E' & PE')];
    rewrite PT, PE, PT', PE' in H; cbn [app] in H; try discriminate;
    (split; (split; [split; intros; try contradiction; assumption|intros; try contradiction]));
    repeat match goal with H : (_ :: _ = _ :: _)%list |- _ => injection H; clear H; intros end; try congruence; assumption.
Qed.

(** ** ConfigSpace *)
Section CS.
  Context {T : Type} (A : arith T).
  Lemma mapM_In {X Y} (f : X -> res Y) l r : mapM f l = Ok r -> forall x, In x l -> exists y, f x = Ok y /\ In y r.
  Proof.
    revert r. induction l as [|a l IH]; intros r H x I; [destruct I|]. cbn [mapM] in H. destruct (f a) as [b|] eqn:F; cbn [bind] in H; [|discriminate].
    destruct (mapM f l) as [r'|]; cbn [bind] in H; [|discriminate]. injection H as <-. destruct I as [<-|I]; [exists b; split; [exact F|left; reflexivity]|].
    destruct (IH r' eq_refl x I) as (y & FY & IY). exists y. split; [exact FY|right; exact IY].
  Qed.
  Lemma cs_prior p q : cs_one A p = Ok q -> (forall v, p <> CSConstant v) -> p_prior q = true.
  Proof.
    intros H N. destruct p as [v|cs d|cs d|l u lg d|l u lg d|]; cbn [cs_one] in H; [exfalso; eapply N; reflexivity| | | | |discriminate].
    - destruct (categorical_parameter cs (Some d) "low") as [c|] eqn:C; cbn [bind] in H; [|discriminate]. injection H as <-. cbn [p_prior].
      unfold categorical_parameter in C. repeat match type of C with context [if ?b then _ else _] => destruct b; try discriminate
        | bind ?x _ = _ => destruct x; cbn [bind] in C; try discriminate | match ?x with _ => _ end = _ => destruct x; try discriminate end; injection C as <-; reflexivity.
    - destruct (categorical_parameter cs (Some d) "low") as [c|] eqn:C; cbn [bind] in H; [|discriminate]. injection H as <-. cbn [p_prior].
      unfold categorical_parameter in C. repeat match type of C with context [if ?b then _ else _] => destruct b; try discriminate
        | bind ?x _ = _ => destruct x; cbn [bind] in C; try discriminate | match ?x with _ => _ end = _ => destruct x; try discriminate end; injection C as <-; reflexivity.
    - destruct (integer_parameter A l u lg false (Some d) "low") as [c|] eqn:C; cbn [bind] in H; [|discriminate]. injection H as <-. cbn [p_prior].
      unfold integer_parameter in C. destruct (round_int A l) as [lz|]; cbn [bind] in C; [|discriminate]. destruct (round_int A u) as [uz|]; cbn [bind] in C; [|discriminate].
      destruct (Z.leb _ 1); [discriminate|]. cbn [res_opt_map] in C. destruct (round_int A d) as [dz|]; cbn [bind] in C; [|discriminate].
      repeat match type of C with context [if ?b then _ else _] => destruct b; try discriminate
        | bind ?x _ = _ => destruct x; cbn [bind] in C; try discriminate | match ?x with _ => _ end = _ => destruct x; try discriminate end; injection C as <-; reflexivity.
    - destruct (float_parameter A l u lg false (Some d) "low") as [c|] eqn:C; cbn [bind] in H; [|discriminate]. injection H as <-. cbn [p_prior].
      unfold float_parameter in C. repeat match type of C with context [if ?b then _ else _] => destruct b; try discriminate
        | bind ?x _ = _ => destruct x; cbn [bind] in C; try discriminate | match ?x with _ => _ end = _ => destruct x; try discriminate end; injection C as <-; reflexivity.
  Qed.
  Lemma configspace_l conditions l ps s : from_configspace A conditions l = Ok ps -> search_space ps = Ok s ->
    (exists k p, In (k, p) l /\ forall v, p <> CSConstant v) -> decide s = "pibo" \/ decide s = "priorband".
  Proof.
    intros H S (k & p & I & N). unfold from_configspace in H. destruct conditions; [discriminate|]. destruct (mapM_In _ _ _ H (k, p) I) as (y & FY & IY).
    cbn [fst snd] in FY. destruct (cs_one A p) as [q|] eqn:C; cbn [bind] in FY; [|discriminate]. injection FY as <-. pose proof (cs_prior p q C N) as P.
    assert (SP : s_prior s = true) by (apply (s_prior_iff ps s S); exists k, q; auto). unfold decide. rewrite SP. destruct (s_fidelity s); auto.
  Qed.
End CS.
