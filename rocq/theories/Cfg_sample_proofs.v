(** Sampled strings, positions of subtrees, mutation and crossover. *)
From Verif Require Import Py Cfg_model Cfg_spec Cfg_text_proofs.
Open Scope list_scope.
Local Notation length := List.length.

(** ** Sampling *)
(** the strings of the cache are those of trees *)
Definition cached (G : grammar) (c : cache) (ct : list (str * tree)) : Prop :=
  Forall2 (fun kv kt => fst kv = fst kt /\ text (snd kt) = snd kv ++ [")"%char] /\ derived G (fst kt) (snd kt) /\ twins (snd kt)) c ct.
Definition kept {A} (c d : list (str * A)) : Prop := forall k v, assoc k c = Some v -> assoc k d = Some v.
Lemma cached_assoc G c ct m s : cached G c ct -> assoc m c = Some s ->
  exists t, assoc m ct = Some t /\ text t = s ++ [")"%char] /\ derived G m t /\ twins t.
Proof.
  induction 1 as [|(k, v) (k', t) c ct (K & T & D & W) _ IH]; [discriminate|]. cbn [fst snd] in *. subst k'. cbn [assoc]. destruct (str_eqb m k) eqn:E; [|exact IH].
  intros [= <-]. apply str_eqb_eq in E. subst m. exists t. auto.
Qed.
Lemma cached_none G c ct m : cached G c ct -> assoc m c = None -> assoc m ct = None.
Proof. induction 1 as [|(k, v) (k', t) c ct (K & _) _ IH]; [reflexivity|]. cbn [fst snd] in *. subst k'. cbn [assoc]. destruct (str_eqb m k); [discriminate|exact IH]. Qed.
Lemma kept_cons {A} m (v : A) c : assoc m c = None -> kept c ((m, v) :: c).
Proof. intros N k w E. cbn [assoc]. destruct (str_eqb k m) eqn:K; [apply str_eqb_eq in K; congruence|exact E]. Qed.

Definition sampled (G : grammar) (rec : str -> list nat -> cache -> res (str * list nat * cache)) : Prop :=
  forall n draws c s draws' c' ct, cached G c ct -> rec n draws c = Ok (s, draws', c') ->
  exists t ct', text t = s ++ [")"%char] /\ derived G n t /\ twins t /\ cached G c' ct' /\ kept ct ct'.
Lemma expand_sampled G rec n : sampled G rec -> forall rhs tree draws c ct past s draws' c',
  cached G c ct -> tree = "("%char :: n ++ kids past ->
  Forall (fun d => parse G d /\ twins d) past -> (forall d m, In d past -> root d = Nt m -> assoc m ct = Some d) ->
  expand rec rhs tree draws c = Ok (s, draws', c') ->
  exists more ct', map root more = rhs /\ s = "("%char :: n ++ kids (past ++ more) /\ cached G c' ct' /\ kept ct ct' /\
    Forall (fun d => parse G d /\ twins d) (past ++ more) /\ (forall d m, In d (past ++ more) -> root d = Nt m -> assoc m ct' = Some d).
Proof.
  intros R. induction rhs as [|sym rhs IH]; intros tree draws c ct past s draws' c' C T F A E.
  - injection E as <- <- <-. exists [], ct. rewrite app_nil_r. repeat split; auto. intros k v X; exact X.
  - assert (STEP : forall t draws c ct1, cached G c ct1 -> kept ct ct1 -> root t = sym -> parse G t -> twins t -> (forall m, root t = Nt m -> assoc m ct1 = Some t) ->
      expand rec rhs (tree ++ " "%char :: text t) draws c = Ok (s, draws', c') ->
      exists more ct', map root more = sym :: rhs /\ s = "("%char :: n ++ kids (past ++ more) /\ cached G c' ct' /\ kept ct ct' /\
        Forall (fun d => parse G d /\ twins d) (past ++ more) /\ (forall d m, In d (past ++ more) -> root d = Nt m -> assoc m ct' = Some d)).
    { clear E draws c C. intros t draws c ct1 C K RT PT TT AT E.
      assert (T' : tree ++ " "%char :: text t = "("%char :: n ++ kids (past ++ [t])).
      { rewrite kids_app, T. cbn [map List.concat List.app]. rewrite app_nil_r, <- app_assoc. reflexivity. }
      destruct (IH _ draws c ct1 (past ++ [t]) s draws' c' C T') as (more & ct' & M & S' & C' & K' & F' & A').
      - apply Forall_app. split; [exact F|constructor; [split; assumption|constructor]].
      - intros d m I RD. apply in_app_or in I. destruct I as [I|[<-|[]]]; [apply K, A; assumption|apply AT, RD].
      - exact E.
      - exists (t :: more), ct'. rewrite <- app_assoc in S', F', A'. cbn [List.app] in *. repeat split; auto; [cbn [map]; congruence|]. intros k v X. apply K', K, X. }
    destruct sym as [w|m]; cbn [expand] in E.
    + apply (STEP (Leaf w) draws c ct C); try exact Logic.I; try reflexivity; [intros k v X; exact X|discriminate|exact E].
    + destruct (assoc m c) as [v|] eqn:AC.
      * destruct (cached_assoc G c ct m v C AC) as (t & AT & TX & (RT & PT) & TT). change chr_close with ")"%char in E. rewrite <- TX in E.
        apply (STEP t draws c ct C); auto; [intros k x X; exact X|intros m' RM; congruence].
      * destruct (rec m draws c) as [((v, draws1), c1)|] eqn:RE; [|discriminate]. cbn [bind] in E.
        destruct (R m draws c v draws1 c1 ct C RE) as (t & ct1 & TX & (RT & PT) & TT & C1 & K1). change chr_close with ")"%char in E. rewrite <- TX in E.
        assert (N := cached_none G c ct m C AC).
        apply (STEP t draws1 ((m, v) :: c1) ((m, t) :: ct1)); auto.
        -- constructor; [cbn [fst snd]; repeat split; auto|exact C1].
        -- intros k x X. cbn [assoc]. destruct (str_eqb k m) eqn:EK; [apply str_eqb_eq in EK; congruence|apply K1, X].
        -- intros m' RM. cbn [assoc]. replace m' with m by congruence. rewrite str_eqb_refl. reflexivity.
Qed.
Lemma sample_sampled G fuel : sampled G (sample G fuel).
Proof.
  induction fuel as [|fuel IH]; intros n draws c s draws' c' ct C E; [discriminate|]. cbn [sample] in E.
  destruct (rules G n) as [|p0 ps] eqn:RG; [discriminate|]. destruct draws as [|k draws]; [discriminate|]. destruct (nth_error (p0 :: ps) k) as [p|] eqn:NP; [|discriminate].
  assert (I : In p G /\ fst p = n).
  { apply nth_error_In in NP. rewrite <- RG in NP. apply filter_In in NP. destruct NP as (I & E'). apply str_eqb_eq in E'. auto. }
  destruct I as (I & <-). change chr_open with "("%char in E.
  destruct (expand_sampled G _ (fst p) IH (snd p) ("("%char :: fst p) draws c ct [] s draws' c' C) as (more & ct' & M & S & C' & K & F & A); auto; [cbn; rewrite app_nil_r; reflexivity|intros d m []|].
  cbn [List.app] in *. exists (Node (fst p) more), ct'. split; [cbn [text]; rewrite S; cbn [List.app]; rewrite <- app_assoc; reflexivity|].
  assert (F1 : Forall (parse G) more) by (rewrite Forall_forall in *; intros d D; apply F, D). assert (F2 : Forall twins more) by (rewrite Forall_forall in *; intros d D; apply F, D).
  split; [split; [reflexivity|]|split; [|split; [exact C'|exact K]]].
  - cbn [parse]. split; [rewrite M; destruct p; exact I|apply all_Forall, F1].
  - cbn [twins]. split; [|apply all_Forall, F2]. intros a b IA IB RE. destruct a as [w|m ca]; [destruct b; cbn in RE; congruence|]. cbn [root] in RE.
    assert (X := A _ m IA eq_refl). assert (Y := A b m IB (eq_sym RE)). congruence.
Qed.
Lemma sample1_tree G fuel n draws s draws' : sample1 G fuel n draws = Ok (s, draws') -> exists t, s = text t /\ derived G n t /\ twins t.
Proof.
  unfold sample1. destruct (sample G fuel n draws []) as [((v, d), c)|] eqn:E; [|discriminate]. intros [= <- <-].
  destruct (sample_sampled G fuel n draws [] v d c [] (Forall2_nil _) E) as (t & _ & T & D & W & _). exists t. auto.
Qed.
Lemma sampler_trees G fuel k n draws ss draws' : sampler G fuel k n draws = Ok (ss, draws') -> length ss = k /\ Forall (fun s => exists t, s = text t /\ derived G n t /\ twins t) ss.
Proof.
  revert draws ss draws'. induction k as [|k IH]; intros draws ss draws' E; [injection E as <- <-; split; [reflexivity|constructor]|]. cbn [sampler] in E.
  destruct (sample1 G fuel n draws) as [(s, d)|] eqn:E1; [|discriminate]. cbn [bind] in E. destruct (sampler G fuel k n d) as [(ts, d')|] eqn:E2; [|discriminate]. injection E as <- <-.
  destruct (IH _ _ _ E2) as (L & F). split; [cbn; congruence|constructor; [eapply sample1_tree; eassumption|exact F]].
Qed.

(** ** Positions *)
Definition closers (y : str) : Prop := Forall (fun a => a = ")"%char) (hd [] (split y)).
Lemma closers_cons y : closers y -> closers (")"%char :: y).
Proof. unfold closers. intros C. cbn [split Ascii.eqb Bool.eqb chr_blank]. destruct (split_cons y) as (w & ws & E). rewrite E in *. cbn [hd] in *. constructor; auto. Qed.
Lemma word_head G : grammar_ok G -> forall t, tree_ok G t -> forall y i w, closers y -> i <= blanks (text t) ->
  nth_error (split (text t ++ y)) i = Some w -> In (tl w) (map fst G) ->
  exists c cs, t = plug c (Node (tl w) cs) /\ i = blanks (before c).
Proof.
  intros OG. induction t as [v|n cs IH] using tree_ind'; intros TO y i w CY LE NE IN.
  - exfalso. destruct TO as (_ & _ & NB & _ & NN). cbn [text] in *. rewrite blanks_none in LE by exact NB. assert (i = 0) by lia. subst i. rewrite split_hd in NE by exact NB. cbn [nth_error] in NE. injection NE as <-.
    unfold closers in CY. destruct (hd [] (split y)) as [|a u] eqn:H.
    + rewrite app_nil_r in IN. destruct v as [|b v]; [|exact (NN b v eq_refl IN)]. cbn in IN.
      apply in_map_iff in IN. destruct IN as ((n, rhs) & E & I). destruct (OG n rhs I) as ((X & _) & _). cbn in E. congruence.
    + apply in_map_iff in IN. destruct IN as ((n, rhs) & E & I). destruct (OG n rhs I) as ((X & _ & _ & NC) & _). cbn [fst] in E. subst n. inversion CY as [|? ? -> CU]; subst. destruct v as [|b v].
      * cbn in *. destruct u as [|b u]; [congruence|]. inversion CU; subst. apply NC. left. reflexivity.
      * cbn in NC. apply NC, in_or_app. right. left. reflexivity.
  - destruct TO as (O & P & _). destruct (tree_kids G n cs O P) as ((_ & NB & _) & NEC & F).
    destruct i as [|j].
    + exists [], cs. cbn [plug before]. split; [|reflexivity]. f_equal. cbn [text] in NE. destruct cs as [|k ks]; [congruence|]. cbn [map List.concat List.app] in NE. rewrite <- !app_assoc in NE. cbn [List.app] in NE.
      rewrite app_comm_cons, split_app in NE. rewrite split_word in NE by (intros [X|X]; [discriminate X|contradiction]). injection NE as <-. reflexivity.
    + assert (FOREST : forall l ks j y, closers y -> ks <> [] -> Forall (tree_ok G) ks ->
        Forall (fun t => tree_ok G t -> forall y i w, closers y -> i <= blanks (text t) -> nth_error (split (text t ++ y)) i = Some w -> In (tl w) (map fst G) ->
          exists c cs, t = plug c (Node (tl w) cs) /\ i = blanks (before c)) ks ->
        S j <= blanks (kids ks) -> nth_error (split (tl (kids ks) ++ y)) j = Some w ->
        exists c cs', Node n (l ++ ks) = plug c (Node (tl w) cs') /\ S (blanks (kids l) + j) = blanks (before c)).
      { clear - NB IN. intros l ks. revert l. induction ks as [|k ks IHk]; intros l j y CY NEK F H LE NE; [congruence|].
        inversion F as [|? ? FK FKS]; subst. inversion H as [|? ? HK HKS]; subst. cbn [map List.concat List.app tl] in *.
        assert (HERE : forall c cs', k = plug c (Node (tl w) cs') -> j = blanks (before c) -> exists c cs', Node n (l ++ k :: ks) = plug c (Node (tl w) cs') /\ S (blanks (kids l) + j) = blanks (before c)).
        { intros c cs' K J. exists ((n, l, ks) :: c), cs'. cbn [plug before]. rewrite <- K. split; [reflexivity|]. rewrite blanks_cons, blanks_app, (blanks_none n NB), blanks_app, blanks_cons. cbn [Nat.add]. destruct (ascii_dec "(" " "); [discriminate|]. destruct (ascii_dec " " " "); [|congruence]. lia. }
        destruct ks as [|k2 ks].
        - cbn [map List.concat] in NE, LE. rewrite !app_nil_r in NE, LE. rewrite blanks_cons in LE. destruct (ascii_dec " " " "); [|congruence]. destruct (HK FK y j w CY ltac:(lia) NE IN) as (c & cs' & K & J). exact (HERE c cs' K J).
        - destruct (Nat.le_gt_cases j (blanks (text k))) as [LJ|GJ].
          + assert (NE' : nth_error (split (text k ++ [])) j = Some w).
            { rewrite app_nil_r. cbn [map List.concat List.app] in NE. rewrite <- app_assoc in NE. cbn [List.app] in NE. rewrite split_app, nth_error_app1 in NE by (rewrite split_length; lia). exact NE. }
            destruct (HK FK [] j w (Forall_nil _) LJ NE' IN) as (c & cs' & K & J). exact (HERE c cs' K J).
          + assert (NE' : nth_error (split (tl (kids (k2 :: ks)) ++ y)) (j - S (blanks (text k))) = Some w).
            { cbn [map List.concat List.app tl] in *. rewrite <- app_assoc in NE. cbn [List.app] in NE. rewrite split_app, nth_error_app2 in NE by (rewrite split_length; lia). rewrite split_length in NE. exact NE. }
            destruct (IHk (l ++ [k]) (j - S (blanks (text k))) y CY ltac:(discriminate) FKS HKS) as (c & cs' & K & J).
            * rewrite blanks_cons, blanks_app in LE. destruct (ascii_dec " " " "); [|congruence]. lia.
            * exact NE'.
            * exists c, cs'. rewrite <- app_assoc in K. split; [exact K|]. rewrite <- J. rewrite kids_app, blanks_app. cbn [map List.concat]. rewrite app_nil_r, blanks_cons. destruct (ascii_dec " " " "); [|congruence]. lia. }
      assert (NE' : nth_error (split (tl (kids cs) ++ ")"%char :: y)) j = Some w).
      { cbn [text] in NE. destruct cs as [|k ks]; [congruence|]. cbn [map List.concat List.app tl] in *. rewrite <- !app_assoc in NE. cbn [List.app] in NE. rewrite app_comm_cons, split_app in NE. rewrite <- !app_assoc.
        rewrite split_word in NE by (intros [X|X]; [discriminate X|contradiction]). cbn [List.app nth_error] in NE. rewrite <- !app_assoc in NE. exact NE. }
      destruct (FOREST [] cs j (")"%char :: y) (closers_cons y CY) NEC F IH) as (c & cs' & K & J).
      * cbn [text] in LE. rewrite blanks_cons, !blanks_app, (blanks_none n NB) in LE. destruct (ascii_dec "(" " "); [discriminate|]. change (blanks [")"%char]) with 0 in LE. lia.
      * exact NE'.
      * exists c, cs'. split; [exact K|]. rewrite <- J. reflexivity.
Qed.
Lemma parse_ok G t n : grammar_ok G -> derived G n t -> tree_ok G t.
Proof. intros O (R & P). split; [exact O|split; [exact P|destruct t; [discriminate|exact Logic.I]]]. Qed.
Lemma begins_word G t i c n cs : grammar_ok G -> parse G t -> begins t i c n cs -> nth_error (split (text t)) i = Some ("("%char :: n).
Proof.
  intros O P (-> & -> & _). pose proof (parse_plug _ _ _ P) as PN. destruct (node_words G n cs (after c) O PN) as (body & _ & _ & W). rewrite text_plug. destruct c as [|f c].
  - cbn [before List.app]. rewrite W. reflexivity.
  - destruct (before_split (f :: c) ltac:(discriminate)) as (x & E). rewrite E, <- app_assoc. cbn [List.app]. rewrite split_app, W.
    rewrite blanks_app. change (blanks [" "%char]) with 1. rewrite nth_error_app2 by (rewrite split_length; lia). replace (blanks x + 1 - length (split x)) with 0 by (rewrite split_length; lia). reflexivity.
Qed.
Lemma positions_places G t s ns i : grammar_ok G -> derived G s t -> (forall n, In n ns -> In n (map fst G)) ->
  In i (positions ns (text t)) <-> exists c n cs, begins t i c n cs /\ In n ns.
Proof.
  intros O D NS. unfold positions. rewrite filter_In. split.
  - intros (_ & M). destruct (nth_error (split (text t)) i) as [w|] eqn:W; [|discriminate]. apply mem_In in M.
    rewrite <- (app_nil_r (text t)) in W. pose proof (parse_ok G t s O D) as TO.
    destruct (word_head G O t TO [] i w (Forall_nil _)) as (c & cs & E & I); auto.
    + apply Nat.lt_succ_r. rewrite <- split_length. apply nth_error_Some. rewrite app_nil_r in W. congruence.
    + exists c, (tl w), cs. split; [|exact M]. split; [exact E|split; [exact I|]]. destruct D as (_ & P). rewrite E in P. apply parse_plug in P. intros ->. destruct (tree_kids G _ _ O P) as (_ & X & _). congruence.
  - intros (c & n & cs & B & IN). destruct D as (_ & P). rewrite (begins_word G t i c n cs O P B). split; [|apply mem_In; exact IN].
    apply in_seq. split; [lia|]. apply nth_error_Some. rewrite (begins_word G t i c n cs O P B). discriminate.
Qed.
Lemma positions_tail G t s i c n cs : grammar_ok G -> derived G s t -> begins t i c n cs -> word_tail (text t) i = n.
Proof. intros O (_ & P) B. unfold word_tail. rewrite (begins_word G t i c n cs O P B). reflexivity. Qed.
Lemma swappable_In G n : In n (swappable G) <-> 1 < length (rules G n).
Proof.
  unfold swappable. rewrite filter_In, Nat.ltb_lt. split; [intros (_ & H); exact H|]. intros H. split; [|exact H]. apply nonterminals_In. unfold rules in H.
  destruct (filter (fun p => str_eqb (fst p) n) G) as [|p l] eqn:E; [cbn in H; lia|]. assert (I : In p (filter (fun p => str_eqb (fst p) n) G)) by (rewrite E; left; reflexivity).
  apply filter_In in I. destruct I as (I & X). apply str_eqb_eq in X. subst n. apply in_map, I.
Qed.
Lemma swappable_head G n : In n (swappable G) -> In n (map fst G).
Proof. unfold swappable. rewrite filter_In. intros (I & _). apply nonterminals_In, I. Qed.
Lemma begins_head G t s i c n cs : derived G s t -> begins t i c n cs -> In n (map fst G).
Proof. intros (_ & P) (-> & _). apply parse_plug in P. destruct P as (I & _). apply (in_map fst) in I. exact I. Qed.
Lemma nth_filter_seq f a k r i : nth_error (filter f (seq a k)) r = Some i -> a + r <= i.
Proof.
  revert a r. induction k as [|k IH]; intros a r E; [destruct r; discriminate|]. cbn [seq filter] in E. destruct (f a).
  - destruct r as [|r]; [injection E as <-; lia|]. apply (IH (S a) r) in E. lia.
  - apply (IH (S a) r) in E. lia.
Qed.

(** ** Mutation *)
Lemma text_node t n : root t = Nt n -> exists b, text t = "("%char :: b ++ [")"%char].
Proof. destruct t as [w|m cs]; [discriminate|]. intros _. exists (m ++ kids cs). cbn [text]. rewrite <- app_assoc. reflexivity. Qed.
Lemma strip_node t n : root t = Nt n -> strip (text t) = text t /\ strip (" "%char :: text t) = text t.
Proof.
  intros R. destruct (text_node t n R) as (b & ->). assert (D : rev (drop_while is_space (rev ("("%char :: b ++ [")"%char]))) = "("%char :: b ++ [")"%char]).
  { rewrite app_comm_cons, rev_app_distr. cbn [rev List.app drop_while]. change (is_space ")") with false. cbv iota. cbn [rev]. rewrite rev_app_distr, rev_involutive. reflexivity. }
  split; unfold strip; cbn [drop_while]; change (is_space " ") with true; change (is_space "(") with false; cbv iota; exact D.
Qed.
(** the text with the place filled, after strip *)
Lemma strip_plug c u n : root u = Nt n -> strip (match c with [] => [" "%char] | _ => before c end ++ text u ++ after c) = text (plug c u).
Proof.
  intros R. destruct c as [|f c].
  - cbn [after plug List.app]. rewrite app_nil_r. apply (strip_node u n R).
  - rewrite <- text_plug. destruct f as ((m, l), r). apply (strip_node (plug ((m, l, r) :: c) u) m). reflexivity.
Qed.
Lemma mutate_loop_tree G fuel patience parent pre post node child draws s draws' :
  mutate_loop G fuel patience parent pre post node child draws = Ok (s, draws') ->
  (forall c, child = Some c -> exists u, derived G node u /\ twins u /\ c = pre ++ text u ++ post) ->
  exists u, derived G node u /\ twins u /\ s = strip (pre ++ text u ++ post).
Proof.
  revert child draws. induction patience as [|p IH]; intros child draws E H; cbn [mutate_loop] in E.
  - destruct child as [c|]; [|discriminate]. injection E as <- <-. destruct (H c eq_refl) as (u & D & W & ->). exists u. auto.
  - destruct (sample1 G fuel node draws) as [(new, d)|] eqn:S1; [|discriminate]. cbn [bind] in E. destruct (sample1_tree _ _ _ _ _ _ S1) as (u & -> & D & W).
    destruct (str_eqb parent (pre ++ text u ++ post)).
    + apply (IH _ _ E). intros c [= <-]. exists u. auto.
    + injection E as <- <-. exists u. auto.
Qed.
Lemma mutate_tree G fuel t s i c n cs patience draws r draws' : grammar_ok G -> derived G s t -> begins t i c n cs ->
  mutate G fuel (text t) i n patience draws = Ok (r, draws') -> exists u, derived G n u /\ twins u /\ r = text (plug c u).
Proof.
  intros O (_ & P) (-> & -> & _). unfold mutate. rewrite (removed_place G c n cs O P). cbn [bind]. intros E. apply mutate_loop_tree in E; [|discriminate].
  destruct E as (u & D & W & ->). exists u. split; [exact D|]. split; [exact W|]. apply (strip_plug c u n), D.
Qed.
Lemma plug_derived G c t s n u : derived G s (plug c t) -> root t = Nt n -> derived G n u -> derived G s (plug c u).
Proof. intros (R & P) RT (RU & PU). split; [rewrite <- R; apply root_plug; congruence|apply (parse_replace G c t u P PU); congruence]. Qed.
(** elsewhere than at the root, the parent is returned only if all samples were the old subtree *)
Lemma mutate_loop_same G fuel patience parent pre post sub node child draws draws' : parent = pre ++ sub ++ post -> 0 < patience \/ child <> None -> strip parent = parent ->
  (forall u n, root u = Nt n -> strip (pre ++ text u ++ post) = pre ++ text u ++ post) ->
  mutate_loop G fuel patience parent pre post node child draws = Ok (parent, draws') -> (forall c, child = Some c -> c = parent) ->
  sampler G fuel patience node draws = Ok (repeat sub patience, draws').
Proof.
  intros PE _ SP ST. revert child draws. induction patience as [|p IH]; intros child draws E H; cbn [mutate_loop] in E.
  - destruct child as [c|]; [|discriminate]. injection E as _ <-. reflexivity.
  - cbn [sampler repeat]. destruct (sample1 G fuel node draws) as [(new, d)|] eqn:S1; [|discriminate]. cbn [bind] in E |- *.
    destruct (str_eqb parent (pre ++ new ++ post)) eqn:EQ.
    + apply str_eqb_eq in EQ. rewrite (IH _ _ E) by (intros c [= <-]; congruence). cbn [bind]. replace new with sub; [reflexivity|]. rewrite PE in EQ. apply app_inv_head, app_inv_tail in EQ. exact EQ.
    + exfalso. apply str_eqb_neq in EQ. injection E as E _. destruct (sample1_tree _ _ _ _ _ _ S1) as (u & -> & (RU & _) & _). rewrite (ST u node RU) in E. congruence.
Qed.
Lemma mutate_same G fuel t s i c n cs patience draws draws' : grammar_ok G -> derived G s t -> begins t i c n cs -> c <> [] ->
  mutate G fuel (text t) i n patience draws = Ok (text t, draws') -> sampler G fuel patience n draws = Ok (repeat (text (Node n cs)) patience, draws').
Proof.
  intros O (_ & P) (-> & -> & _) NC. unfold mutate. rewrite (removed_place G c n cs O P). destruct c as [|f c]; [congruence|]. cbn [bind]. intros E.
  destruct patience as [|p]; [discriminate|]. refine (mutate_loop_same G fuel (S p) _ _ _ (text (Node n cs)) n None draws draws' (text_plug _ _) (or_introl (Nat.lt_0_succ p)) _ _ E _).
  - destruct f as ((m, l), r). apply (strip_node _ m). reflexivity.
  - intros u m R. rewrite <- text_plug. destruct f as ((m', l), r). apply (strip_node _ m'). reflexivity.
  - discriminate.
Qed.

(** ** Choice of a subtree *)
Lemma draw_after_first_spec idx draws i draws' : draw_after_first idx draws = Ok (i, draws') -> exists r, draws = S r :: draws' /\ nth_error idx (S r) = Some i.
Proof.
  unfold draw_after_first. destruct (Nat.leb (length idx) 1); [discriminate|]. destruct draws as [|[|r] d]; try discriminate. destruct (nth_error idx (S r)) eqn:E; [|discriminate]. intros [= <- <-]. exists r. auto.
Qed.
Lemma rand_subtree_place G t s draws n i draws' : grammar_ok G -> derived G s t -> rand_subtree G (text t) draws = Ok (n, i, draws') ->
  exists c cs, begins t i c n cs /\ In n (swappable G) /\ 0 < i.
Proof.
  intros O D. unfold rand_subtree. destruct (draw_after_first (positions (swappable G) (text t)) draws) as [(j, d)|] eqn:E; [|discriminate]. cbn [bind]. intros [= <- <- <-].
  apply draw_after_first_spec in E. destruct E as (r & _ & NE). assert (I := nth_error_In _ _ NE). apply (positions_places G t s _ j O D (swappable_head G)) in I. destruct I as (c & m & cs & B & IN).
  exists c, cs. rewrite (positions_tail G t s j c m cs O D B). split; [exact B|split; [exact IN|]]. unfold positions in NE. apply nth_filter_seq in NE. lia.
Qed.
Lemma fixed_head_place G t s h draws i draws' : grammar_ok G -> derived G s t -> In h (map fst G) -> rand_subtree_fixed_head (text t) h draws = Ok (Some i, draws') ->
  exists c cs, begins t i c h cs.
Proof.
  intros O D IH E. assert (I : In i (positions [h] (text t))).
  { unfold rand_subtree_fixed_head in E. destruct (positions [h] (text t)) as [|a [|b l]]; [discriminate|injection E as <- _; left; reflexivity|].
    destruct (draw_after_first (a :: b :: l) draws) as [(j, d)|] eqn:E1; [|discriminate]. injection E as <- <-. apply draw_after_first_spec in E1. destruct E1 as (r & _ & X). exact (nth_error_In _ _ X). }
  apply (positions_places G t s [h] i O D) in I; [|intros n [<-|[]]; exact IH]. destruct I as (c & n & cs & B & [<-|[]]). exists c, cs. exact B.
Qed.
Lemma begins_positive t i c n cs : begins t i c n cs -> 0 < i -> c <> []. Proof. intros (_ & -> & _) P ->. cbn in P. lia. Qed.

(** ** Crossover *)
Lemma crossover_trees G t1 t2 s1 s2 patience draws a b : grammar_ok G -> derived G s1 t1 -> derived G s2 t2 ->
  crossover G (text t1) (text t2) patience draws = Ok (Some (a, b)) ->
  exists c1 c2 n x y, c1 <> [] /\ c2 <> [] /\ In n (swappable G) /\ t1 = plug c1 x /\ t2 = plug c2 y /\ root x = Nt n /\ root y = Nt n /\ a = text (plug c1 y) /\ b = text (plug c2 x).
Proof.
  intros O D1 D2. unfold crossover. destruct (rand_subtree G (text t1) draws) as [((n, i), d)|] eqn:R; [|discriminate]. cbn [bind].
  destruct (rand_subtree_place G t1 s1 draws n i d O D1 R) as (c1 & cs1 & B1 & SW & PI). pose proof (begins_positive _ _ _ _ _ B1 PI) as NC1.
  pose proof B1 as (E1 & I1 & _). pose proof D1 as (_ & P1). rewrite E1 in P1. rewrite E1, I1, (removed_place G c1 n cs1 O P1). cbn [bind]. clear R. revert d.
  induction patience as [|p IH]; intros d E; [discriminate|]. cbn [crossover_loop] in E. destruct (rand_subtree_fixed_head (text t2) n d) as [(o, d')|] eqn:F; [|discriminate]. cbn [bind] in E.
  destruct o as [[|j]|]; [exact (IH _ E)| |exact (IH _ E)]. destruct (fixed_head_place G t2 s2 n d (S j) d' O D2 (swappable_head G n SW) F) as (c2 & cs2 & B2).
  pose proof (begins_positive _ _ _ _ _ B2 ltac:(lia)) as NC2. pose proof B2 as (E2 & I2 & _). pose proof D2 as (_ & P2). rewrite E2 in P2. rewrite I2, E2, (removed_place G c2 n cs2 O P2) in E. cbn [bind] in E. injection E as <- <-.
  exists c1, c2, n, (Node n cs1), (Node n cs2). repeat split; auto; [exact (strip_plug c1 (Node n cs2) n eq_refl)|exact (strip_plug c2 (Node n cs1) n eq_refl)].
Qed.

(** ** Bananas *)
Lemma bananas_step G fuel t s i patience draws r draws' : grammar_ok G -> derived G s t -> In i (positions (swappable G) (text t)) ->
  mutate G fuel (text t) i (word_tail (text t) i) patience draws = Ok (r, draws') -> exists u, derived G s u /\ r = text u /\ positions (swappable G) r <> [].
Proof.
  intros O D I E. apply (positions_places G t s _ i O D (swappable_head G)) in I. destruct I as (c & n & cs & B & IN). rewrite (positions_tail G t s i c n cs O D B) in E.
  destruct (mutate_tree G fuel t s i c n cs patience draws r draws' O D B E) as (u & DU & _ & ->). pose proof B as (TE & _ & _). subst t.
  assert (DP : derived G s (plug c u)) by (eapply plug_derived; [exact D|reflexivity|exact DU]). exists (plug c u). split; [exact DP|split; [reflexivity|]].
  assert (X : In (blanks (before c)) (positions (swappable G) (text (plug c u)))).
  { apply (positions_places G (plug c u) s _ _ O DP (swappable_head G)). destruct u as [w|m us]; [destruct DU; discriminate|]. destruct DU as (RU & PU). injection RU as ->. exists c, n, us. split; [|exact IN].
    split; [reflexivity|split; [reflexivity|apply (tree_kids G n us O PU)]]. }
  intros N. rewrite N in X. exact X.
Qed.
Lemma bananas_loop_tree G fuel s coins : grammar_ok G -> forall idx patience t draws,  derived G s t ->
  match bananas_loop G fuel coins idx patience (text t) draws with Ok r => exists u, derived G s u /\ r = text u | Err e => e <> ZeroDivisionError end.
Proof.
  intros O. induction coins as [|[] coins IH]; intros idx patience t draws D; cbn [bananas_loop];
    (destruct (nth_error (positions (swappable G) (text t)) idx) as [i|] eqn:NE; [|exists t; split; [exact D|reflexivity]]).
  - discriminate.
  - destruct (mutate G fuel (text t) i (word_tail (text t) i) patience draws) as [(r, d)|e] eqn:E; cbn [bind].
    + destruct (bananas_step G fuel t s i patience draws r d O D (nth_error_In _ _ NE) E) as (u & DU & -> & NN). destruct (positions (swappable G) (text u)); [congruence|]. apply IH, DU.
    + intros ->. clear - E. unfold mutate, remove_subtree in E. destruct (nth_error (split (text t)) i); [|discriminate]. cbn [bind] in E. revert E.
      match goal with |- mutate_loop _ _ _ _ ?a ?b _ _ _ = _ -> _ => generalize a b end. intros pre post. generalize (None : option str). revert draws. induction patience as [|p IH]; intros draws child E; cbn [mutate_loop] in E; [destruct child; discriminate|].
      destruct (sample1 G fuel (word_tail (text t) i) draws) as [(new, d)|e] eqn:S1; cbn [bind] in E; [destruct (str_eqb (text t) (pre ++ new ++ post)); [exact (IH _ _ E)|discriminate]|].
      injection E as ->. clear - S1. unfold sample1 in S1.
      assert (X : forall fuel n draws c, sample G fuel n draws c <> Err ZeroDivisionError).
      { clear. induction fuel as [|fuel IH]; intros n draws c E; [discriminate|]. cbn [sample] in E. destruct (rules G n); [discriminate|]. destruct draws as [|k draws]; [discriminate|]. destruct (nth_error (p :: l) k) as [q|]; [|discriminate].
        revert E. generalize (chr_open :: n). revert draws c. induction (snd q) as [|[w|m] rhs IHr]; intros draws c tree E; cbn [expand] in E; [discriminate|exact (IHr _ _ _ E)|].
        destruct (assoc m c); [exact (IHr _ _ _ E)|]. destruct (sample G fuel m draws c) as [((x, y), z)|e] eqn:SE; cbn [bind] in E; [exact (IHr _ _ _ E)|]. injection E as ->. exact (IH _ _ _ SE). }
      destruct (sample G fuel (word_tail (text t) i) draws []) as [((x, y), z)|e] eqn:SE; cbn [bind] in S1; [discriminate|]. injection S1 as ->. exact (X _ _ _ _ SE).
  - apply IH, D.
Qed.
Lemma bananas_tree G fuel s t patience coins draws : grammar_ok G -> derived G s t ->
  match bananas_mutate G fuel (text t) patience coins draws with
  | Ok (r, same) => (exists u, derived G s u /\ r = text u) /\ (same = true <-> r = text t)
  | Err e => e = ZeroDivisionError <-> forall i c n cs, begins t i c n cs -> ~ In n (swappable G)
  end.
Proof.
  intros O D. unfold bananas_mutate. pose proof (fun i => positions_places G t s (swappable G) i O D (swappable_head G)) as PP. pose proof (bananas_loop_tree G fuel s coins O 0 patience t draws D) as L.
  destruct (positions (swappable G) (text t)) as [|a l] eqn:PE.
  - split; [|reflexivity]. intros _ i c n cs B IN. apply (PP i). eauto 6.
  - destruct (bananas_loop G fuel coins 0 patience (text t) draws) as [r|e]; cbn [bind].
    + split; [exact L|apply str_eqb_eq].
    + split; [intros ->; congruence|]. intros N. exfalso. destruct (proj1 (PP a) (or_introl eq_refl)) as (c & n & cs & B & IN). exact (N _ _ _ _ B IN).
Qed.

(** ** In the words of the specification *)
Lemma rules_count G n : length (rules G n) = count_occ (list_eq_dec ascii_dec) (map fst G) n.
Proof.
  unfold rules. induction G as [|p G IH]; [reflexivity|]. cbn [filter map count_occ]. unfold str_eqb at 1. destruct (list_eq_dec ascii_dec (fst p) n); cbn [length]; rewrite IH; reflexivity.
Qed.
Lemma swappable_choice G n : In n (swappable G) <-> choice G n. Proof. rewrite swappable_In, rules_count. reflexivity. Qed.
Lemma positions_open G t s i : grammar_ok G -> derived G s t -> In i (positions (swappable G) (text t)) <-> exists n, open_at G t i n.
Proof.
  intros O D. rewrite (positions_places G t s _ i O D (swappable_head G)). split.
  - intros (c & n & cs & B & IN). exists n. split; [apply swappable_choice, IN|exists c, cs; exact B].
  - intros (n & C & c & cs & B). exists c, n, cs. split; [exact B|apply swappable_choice, C].
Qed.
Lemma filter_seq_rank f a k i : In i (filter f (seq a k)) -> exists r, nth_error (filter f (seq a k)) r = Some i /\ (r = 0 <-> forall j, In j (filter f (seq a k)) -> i <= j).
Proof.
  intros I. destruct (In_nth_error _ _ I) as (r & N). exists r. split; [exact N|]. revert N. generalize I. clear I. revert a r. induction k as [|k IH]; intros a r I N; [destruct I|]. cbn [seq filter] in *.
  destruct (f a) eqn:FA.
  - destruct r as [|r].
    + injection N as <-. split; [|reflexivity]. intros _ j [<-|J]; [lia|]. apply filter_In in J. destruct J as (J & _). apply in_seq in J. lia.
    + split; [discriminate|]. intros H. specialize (H a (or_introl eq_refl)). apply (nth_filter_seq f (S a) k r i) in N. lia.
  - apply (IH (S a) r I N).
Qed.
Lemma rand_subtree_open G t s i n : grammar_ok G -> derived G s t ->
  (exists draws d, rand_subtree G (text t) draws = Ok (n, i, d)) <-> open_at G t i n /\ exists j m, j < i /\ open_at G t j m.
Proof.
  intros O D. split.
  - intros (draws & d & E). destruct (rand_subtree_place G t s draws n i d O D E) as (c & cs & B & IN & _). split; [split; [apply swappable_choice, IN|exists c, cs; exact B]|].
    unfold rand_subtree in E. destruct (draw_after_first (positions (swappable G) (text t)) draws) as [(j, d')|] eqn:E1; [|discriminate]. injection E as _ <- _. apply draw_after_first_spec in E1. destruct E1 as (r & _ & NE).
    destruct (positions (swappable G) (text t)) as [|j0 l] eqn:PE; [discriminate|]. destruct (proj1 (positions_open G t s j0 O D)) as (m & OM); [rewrite PE; left; reflexivity|]. exists j0, m. split; [|exact OM].
    unfold positions in PE. set (f := fun i => _) in PE. clearbody f. revert PE NE. generalize (length (split (text t))). generalize 0. intros a k. revert a. induction k as [|k IH]; intros a PE NE; [discriminate|]. cbn [seq filter] in PE.
    destruct (f a); [|exact (IH _ PE NE)]. injection PE as <- PE. cbn [nth_error] in NE. rewrite <- PE in NE. apply nth_filter_seq in NE. lia.
  - intros ((CN & c & cs & B) & j & m & LT & OM). assert (I : In i (positions (swappable G) (text t))) by (apply (positions_open G t s i O D); exists n; split; [exact CN|exists c, cs; exact B]).
    assert (J : In j (positions (swappable G) (text t))) by (apply (positions_open G t s j O D); exists m; exact OM).
    unfold positions in I. destruct (filter_seq_rank _ _ _ _ I) as (r & N & Z). fold (positions (swappable G) (text t)) in *. destruct r as [|r]; [exfalso; specialize (proj1 Z eq_refl j J); lia|].
    exists [S r], []. unfold rand_subtree, draw_after_first. change (filter _ _) with (positions (swappable G) (text t)) in N.
    destruct (Nat.leb_spec (length (positions (swappable G) (text t))) 1) as [L|L]; [exfalso; assert (X : S r < length (positions (swappable G) (text t))) by (apply nth_error_Some; congruence); lia|].
    rewrite N. cbn [bind]. rewrite (positions_tail G t s i c n cs O D B). reflexivity.
Qed.
Lemma place_balanced G c t x : grammar_ok G -> parse G (plug c t) -> balanced x -> balanced (before c ++ x ++ after c).
Proof.
  intros O. induction c as [|((n, l), r) c IH]; intros P B; [cbn; rewrite app_nil_r; exact B|]. cbn [plug] in P. destruct (tree_kids G n _ O P) as ((_ & _ & NO & NC) & _ & F). apply Forall_app in F. destruct F as (FL & FR). inversion FR as [|? ? (_ & PP & _) FR']; subst.
  cbn [before after]. replace (("("%char :: n ++ kids l ++ " "%char :: before c) ++ x ++ after c ++ kids r ++ [")"%char]) with ("("%char :: (n ++ kids l ++ ([" "%char] ++ (before c ++ x ++ after c)) ++ kids r) ++ [")"%char]).
  - apply balanced_wrap, balanced_app; [apply balanced_solid; assumption|]. apply balanced_app; [eapply kids_balanced, FL|]. apply balanced_app; [|eapply kids_balanced, FR'].
    apply balanced_app; [apply balanced_solid; intros [X|[]]; discriminate X|apply IH; assumption].
  - cbn [List.app]. rewrite <- !app_assoc. cbn [List.app]. rewrite <- !app_assoc. reflexivity.
Qed.
Lemma remove_balanced G s t i c n cs new : grammar_ok G -> derived G s t -> begins t i c n cs -> balanced new ->
  exists a b d, remove_subtree (text t) i = Ok (a, b, d) /\ balanced b /\ balanced (a ++ new ++ d).
Proof.
  intros O (_ & P) (-> & -> & _) B. rewrite (removed_place G c n cs O P). eexists _, _, _. split; [reflexivity|]. split; [apply (text_balanced G); split; [exact O|split; [exact (parse_plug _ _ _ P)|exact Logic.I]]|].
  pose proof (place_balanced G c _ new O P B) as X. destruct c; [|exact X]. cbn [before after List.app] in *. change (" "%char :: new ++ []) with ([" "%char] ++ (new ++ [])). apply balanced_app; [apply balanced_solid; intros [Y|[]]; discriminate Y|exact X].
Qed.
Lemma remove_any tree i : 0 < i < blanks tree -> exists a b c, remove_subtree tree i = Ok (a, b, c) /\ a ++ b ++ c = tree.
Proof.
  intros (P & L). destruct (remove_subtree tree i) as [((a, b), c)|e] eqn:E.
  - exists a, b, c. split; [reflexivity|]. apply (removed_parts tree i a b c E P). rewrite split_length. lia.
  - exfalso. unfold remove_subtree in E. destruct (nth_error (split tree) i) eqn:N; [discriminate|]. apply nth_error_None in N. rewrite split_length in N. lia.
Qed.
Lemma init_ok G : init G = Ok G.
Proof.
  unfold init. destruct (existsb (fun s => mem s (nonterminals G)) (terminals G)) eqn:E.
  - exfalso. apply existsb_exists in E. destruct E as (s & I & M). apply nodup_In, filter_In in I. destruct I as (_ & N). rewrite M in N. discriminate.
  - destruct (existsb (fun n => Nat.eqb (length (rules G n)) 0) (nonterminals G)) eqn:E2; [|reflexivity]. exfalso. apply existsb_exists in E2. destruct E2 as (n & I & M). apply Nat.eqb_eq in M. rewrite rules_count in M.
    apply nonterminals_In in I. apply (count_occ_In (list_eq_dec ascii_dec)) in I. lia.
Qed.

Lemma mutation_tree G fuel s t i c n cs patience draws r d : grammar_ok G -> derived G s t -> begins t i c n cs -> mutate G fuel (text t) i n patience draws = Ok (r, d) ->
  exists u, derived G n u /\ twins u /\ r = text (plug c u) /\ derived G s (plug c u).
Proof.
  intros O D B E. destruct (mutate_tree G fuel t s i c n cs patience draws r d O D B E) as (u & DU & W & ->). exists u. repeat split; try apply DU; try exact W.
  - destruct B as (-> & _). apply (plug_derived G c (Node n cs) s n u D eq_refl DU).
  - destruct B as (-> & _). apply (plug_derived G c (Node n cs) s n u D eq_refl DU).
Qed.
Lemma mutate_impatient G fuel s t i c n cs draws : grammar_ok G -> derived G s t -> begins t i c n cs -> mutate G fuel (text t) i n 0 draws = Err UnboundLocalError.
Proof. intros O (_ & P) (-> & -> & _). unfold mutate. rewrite (removed_place G c n cs O P). reflexivity. Qed.
Lemma depth_text G : (forall n rhs, In (n, rhs) G -> depth n = 0%Z /\ Forall (fun x => match x with Tm w => depth w = 0%Z | Nt _ => True end) rhs) ->
  forall t, parse G t -> match t with Leaf w => depth w = 0%Z | Node _ _ => True end -> depth (text t) = 0%Z.
Proof.
  intros H. induction t as [w|n cs IH] using tree_ind'; intros P L; [exact L|]. destruct P as (I & A). apply all_Forall in A. destruct (H _ _ I) as (DN & F). cbn [text depth Ascii.eqb Bool.eqb]. rewrite !depth_app, DN.
  assert (K : depth (kids cs) = 0%Z).
  { clear I. induction cs as [|c cs IHc]; [reflexivity|]. inversion IH; subst. inversion A; subst. inversion F as [|? ? FC FCS]; subst. cbn [map List.concat]. rewrite depth_app, IHc by assumption. cbn [depth Ascii.eqb Bool.eqb].
    match goal with X : _ -> _ -> depth (text c) = 0%Z |- _ => rewrite X; [reflexivity|assumption|destruct c; [exact FC|exact Logic.I]] end. }
  rewrite K. reflexivity.
Qed.
Lemma bananas_open G fuel s t patience coins draws : grammar_ok G -> derived G s t ->
  match bananas_mutate G fuel (text t) patience coins draws with
  | Ok (r, same) => (exists u, derived G s u /\ r = text u) /\ (same = true <-> r = text t)
  | Err e => e = ZeroDivisionError <-> forall i n, ~ open_at G t i n
  end.
Proof.
  intros O D. pose proof (bananas_tree G fuel s t patience coins draws O D) as H. destruct (bananas_mutate G fuel (text t) patience coins draws) as [(r, same)|e]; [exact H|].
  rewrite H. split; [intros N i n (C & c & cs & B); exact (N i c n cs B (proj2 (swappable_choice G n) C))|]. intros N i c n cs B I. apply (N i n). split; [apply swappable_choice, I|exists c, cs; exact B].
Qed.
Lemma graph_mutate_tree G fuel s t strategy draws r : grammar_ok G -> derived G s t -> graph_mutate G fuel (text t) strategy draws = Ok r ->
  exists u, derived G s u /\ r = text u /\ u <> t.
Proof.
  intros O D. unfold graph_mutate. destruct strategy as [coins|].
  - pose proof (bananas_tree G fuel s t 50 coins draws O D) as H. destruct (bananas_mutate G fuel (text t) 50 coins draws) as [(x, same)|e]; [|discriminate]. cbn [bind]. destruct same; [discriminate|]. intros [= <-].
    destruct H as ((u & DU & ->) & SM). exists u. split; [exact DU|split; [reflexivity|]]. intros ->. destruct SM as (_ & SM). specialize (SM eq_refl). discriminate.
  - unfold simple_mutate. destruct (rand_subtree G (text t) draws) as [((n, i), d)|e] eqn:R; [|discriminate]. cbn [bind]. destruct (rand_subtree_place G t s draws n i d O D R) as (c & cs & B & _).
    destruct (mutate G fuel (text t) i n 50 d) as [(x, d')|e] eqn:E; [|discriminate]. cbn [bind]. destruct (mutation_tree G fuel s t i c n cs 50 d x d' O D B E) as (u & _ & _ & -> & DU). destruct (str_eqb (text t) (text (plug c u))) eqn:EQ; [discriminate|].
    intros [= <-]. exists (plug c u). split; [exact DU|split; [reflexivity|]]. apply str_eqb_neq in EQ. congruence.
Qed.
Lemma graph_crossover_trees G t1 t2 s1 s2 draws a b : grammar_ok G -> derived G s1 t1 -> derived G s2 t2 -> graph_crossover G (text t1) (text t2) draws = Ok (a, b) ->
  exists c1 c2 n x y, c1 <> [] /\ c2 <> [] /\ choice G n /\ t1 = plug c1 x /\ t2 = plug c2 y /\ root x = Nt n /\ root y = Nt n /\
    a = text (plug c1 y) /\ b = text (plug c2 x) /\ derived G s1 (plug c1 y) /\ derived G s2 (plug c2 x).
Proof.
  intros O D1 D2. unfold graph_crossover. destruct (crossover G (text t1) (text t2) 50 draws) as [[(a', b')|]|e] eqn:E; try discriminate. intros [= <- <-].
  destruct (crossover_trees G t1 t2 s1 s2 50 draws a' b' O D1 D2 E) as (c1 & c2 & n & x & y & N1 & N2 & SW & -> & -> & RX & RY & EA & EB).
  exists c1, c2, n, x, y. pose proof (conj RX (parse_plug _ _ _ (proj2 D1)) : derived G n x) as DX. pose proof (conj RY (parse_plug _ _ _ (proj2 D2)) : derived G n y) as DY.
  pose proof (plug_derived G c1 x s1 n y D1 RX DY) as E1. pose proof (plug_derived G c2 y s2 n x D2 RY DX) as E2. apply swappable_choice in SW. tauto.
Qed.
