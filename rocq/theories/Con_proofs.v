(** Grammars with constraints. *)
From Verif Require Import Py Cfg_model Cfg_spec Cfg_text_proofs Cfg_sample_proofs Cfg_prior_proofs Con_model Con_spec.
Local Open Scope nat_scope.
Local Open Scope list_scope.
Local Notation length := List.length.

Section Sample.
  Context {St : Type}.
  Variables (G : grammar) (C : constraints St).
  Lemma rules_productions n : rules G n = productions_of G n. Proof. reflexivity. Qed.
  Lemma allowed_in na n p : In p (allowed G na n) <-> In p G /\ fst p = n /\ ~ In p na.
  Proof.
    unfold allowed, rules. rewrite !filter_In, negb_true_iff, str_eqb_eq. split.
    - intros ((I & E) & N). split; [exact I|]. split; [exact E|]. intros J. assert (X : existsb (prod_eqb p) na = true) by (apply existsb_exists; exists p; split; [exact J|apply prod_eqb_eq; reflexivity]). congruence.
    - intros (I & E & N). split; [auto|]. destruct (existsb (prod_eqb p) na) eqn:X; [|reflexivity]. apply existsb_exists in X. destruct X as (q & J & Q). apply prod_eqb_eq in Q. subst q. contradiction.
  Qed.
  Definition sound (rec : str -> list production -> list nat -> res (str * list nat)) : Prop := forall n na draws s d, rec n na draws = Ok (s, d) ->
    exists cs, text (Node n cs) = s ++ [")"%char] /\ parse G (Node n cs) /\ obeys G C (Node n cs) /\ ~ In (n, map root cs) na.
  Lemma cexpand_ok rec n : sound rec -> forall rhs st tree draws s d past, tree = "("%char :: n ++ kids past -> cexpand G C rec rhs st tree draws = Ok (s, d) ->
    exists more, map root more = rhs /\ s = "("%char :: n ++ kids (past ++ more) /\ Forall (parse G) more /\ goes G C st more.
  Proof.
    intros R. induction rhs as [|[w|m] rhs IH]; intros st tree draws s d past T E; cbn [cexpand] in E.
    - injection E as <- <-. exists []. rewrite app_nil_r. repeat split; [exact T|constructor|constructor].
    - destruct (IH st (tree ++ chr_blank :: w) draws s d (past ++ [Leaf w])) as (more & M & S' & F & GO); [rewrite kids_app, T; cbn [map List.concat List.app text]; rewrite app_nil_r, <- app_assoc; reflexivity|exact E|].
      exists (Leaf w :: more). rewrite <- app_assoc in S'. repeat split; [cbn [map root]; congruence|exact S'|constructor; [exact Logic.I|exact F]|constructor; exact GO].
    - destruct (refused C st m (rules G m)) as [na|] eqn:RF; [|discriminate]. cbn [bind] in E. destruct (rec m na draws) as [(ret, d1)|] eqn:RE; [|discriminate]. cbn [bind] in E.
      destruct (R _ _ _ _ _ RE) as (cs & TX & P & OB & NI). change chr_close with ")"%char in E. rewrite <- TX in E. destruct (told C st (text (Node m cs))) as [st'|] eqn:TO; [|discriminate]. cbn [bind] in E.
      destruct (IH st' (tree ++ chr_blank :: text (Node m cs)) d1 s d (past ++ [Node m cs])) as (more & M & S' & F & GO); [rewrite kids_app, T; cbn [map List.concat List.app]; rewrite app_nil_r, <- app_assoc; reflexivity|exact E|].
      exists (Node m cs :: more). rewrite <- app_assoc in S'. repeat split; [cbn [map root]; congruence|exact S'|constructor; [exact P|exact F]|]. eapply goes_node; [exact RF|exact NI|exact OB|exact TO|exact GO].
  Qed.
  Lemma csample_ok fuel : sound (csample G C fuel).
  Proof.
    induction fuel as [|fuel IH]; intros n na draws s d E; [discriminate|]. cbn [csample] in E. destruct (allowed G na n) as [|p0 ps] eqn:A; [discriminate|]. destruct draws as [|k draws]; [discriminate|]. destruct (nth_error (p0 :: ps) k) as [p|] eqn:NP; [|discriminate].
    assert (I : In p (allowed G na n)) by (rewrite A; exact (nth_error_In _ _ NP)). apply allowed_in in I. destruct I as (I & EN & NI). destruct p as (n', rhs). cbn [fst snd] in *. subst n'.
    destruct rhs as [|s0 rhs]; [discriminate|]. destruct (begin C s0) as [st|] eqn:B; [|discriminate]. cbn [bind] in E.
    destruct (cexpand_ok _ n IH (s0 :: rhs) st ("("%char :: n) draws s d []) as (more & M & S' & F & GO); [cbn; rewrite app_nil_r; reflexivity|exact E|]. cbn [List.app] in S'. exists more.
    split; [cbn [text]; rewrite S'; cbn [List.app]; rewrite <- app_assoc; reflexivity|]. rewrite M. split; [cbn [parse]; rewrite M; split; [exact I|apply all_Forall, F]|]. split; [|exact NI].
    destruct more as [|c more]; [discriminate|]. cbn [map] in M. injection M as M1 M2. apply obeys_node with (st := st); [rewrite M1; exact B|exact GO].
  Qed.
  Lemma csample1_ok fuel n na draws s d : csample1 G C fuel n na draws = Ok (s, d) -> exists cs, s = text (Node n cs) /\ derived G n (Node n cs) /\ obeys G C (Node n cs) /\ ~ In (n, map root cs) na.
  Proof.
    unfold csample1. destruct (csample G C fuel n na draws) as [(v, d')|] eqn:E; [|discriminate]. intros H. cbn [bind] in H. injection H as <- <-. destruct (csample_ok fuel _ _ _ _ _ E) as (cs & T & P & O & N). exists cs. split; [symmetry; exact T|]. split; [split; [reflexivity|exact P]|auto].
  Qed.

  (** *** everything that obeys can be sampled *)
  Definition reached (t : tree) : Prop := match t with Leaf _ => True | Node n cs => parse G t -> obeys G C t -> forall na, ~ In (n, map root cs) na ->
    exists fuel ds, forall fuel' rest, fuel <= fuel' -> exists s, csample G C fuel' n na (ds ++ rest) = Ok (s, rest) /\ text t = s ++ [")"%char] end.
  Lemma cexpand_reached : forall cs, Forall reached cs -> Forall (parse G) cs -> forall st, goes G C st cs ->
    exists fuel ds, forall fuel' rest tree, fuel <= fuel' -> cexpand G C (csample G C fuel') (map root cs) st tree (ds ++ rest) = Ok (tree ++ kids cs, rest).
  Proof.
    induction cs as [|c cs IH]; intros R P st GO.
    - exists 0, []. intros fuel' rest tree _. cbn. rewrite app_nil_r. reflexivity.
    - inversion R as [|? ? R1 R2]; subst. inversion P as [|? ? P1 P2]; subst. inversion GO as [|st0 w cs0 GO1|st0 m ds0 cs0 na st' RF NI OB TO GO1]; subst.
      + destruct (IH R2 P2 st GO1) as (fuel & ds & H). exists fuel, ds. intros fuel' rest tree L. cbn [map root cexpand]. rewrite (H fuel' rest _ L), <- app_assoc. reflexivity.
      + destruct (R1 P1 OB na NI) as (f1 & ds1 & H1). destruct (IH R2 P2 st' GO1) as (f2 & ds2 & H2). exists (Nat.max f1 f2), (ds1 ++ ds2). intros fuel' rest tree L. cbn [map root cexpand]. rewrite rules_productions, RF. cbn [bind].
        destruct (H1 fuel' (ds2 ++ rest)) as (s & E & T); [lia|]. rewrite <- app_assoc, E. cbn [bind]. change chr_close with ")"%char. rewrite <- T, TO. cbn [bind]. rewrite H2 by lia. rewrite <- app_assoc. reflexivity.
  Qed.
  Lemma csample_reached : forall t, reached t.
  Proof.
    induction t as [w|n cs IH] using tree_ind'; [exact Logic.I|]. intros P OB na NI. destruct P as (I & A). apply all_Forall in A. inversion OB as [|n0 c cs0 st B GO]; subst.
    destruct (cexpand_reached (c :: cs0) IH A st GO) as (fuel & ds & H). assert (J : In (n, map root (c :: cs0)) (allowed G na n)) by (apply allowed_in; auto). apply In_nth_error in J. destruct J as (k & K). exists (S fuel), (k :: ds). intros fuel' rest L.
    destruct fuel' as [|fuel']; [lia|]. cbn [csample List.app]. destruct (allowed G na n) as [|p0 ps]; [destruct k; discriminate|]. unfold production in *. rewrite K. cbn [snd]. cbn [map] in *. rewrite B. cbn [bind]. rewrite H by lia. eexists. split; [reflexivity|]. cbn [text List.app]. rewrite <- app_assoc. reflexivity.
  Qed.
  Lemma csample1_all n cs na : derived G n (Node n cs) -> obeys G C (Node n cs) -> ~ In (n, map root cs) na -> exists fuel draws, csample1 G C fuel n na draws = Ok (text (Node n cs), []).
  Proof.
    intros (_ & P) O N. destruct (csample_reached (Node n cs) P O na N) as (fuel & ds & H). destruct (H fuel [] (le_n _)) as (s & E & T). exists fuel, (ds ++ []). unfold csample1. rewrite E. cbn [bind]. change chr_close with ")"%char. rewrite <- T. reflexivity.
  Qed.

  (** *** mutation *)
  Lemma cmutate_loop_ok fuel parent pre post node na : forall patience child draws r d, cmutate_loop G C fuel patience parent pre post node na child draws = Ok (r, d) ->
    (forall c, child = Some c -> exists cs, c = pre ++ text (Node node cs) ++ post /\ derived G node (Node node cs) /\ obeys G C (Node node cs) /\ ~ In (node, map root cs) na) ->
    exists cs, r = strip (pre ++ text (Node node cs) ++ post) /\ derived G node (Node node cs) /\ obeys G C (Node node cs) /\ ~ In (node, map root cs) na.
  Proof.
    induction patience as [|patience IH]; intros child draws r d E H; cbn [cmutate_loop] in E.
    - destruct child as [c|]; [|discriminate]. injection E as <- <-. destruct (H c eq_refl) as (cs & -> & K). exists cs. split; [reflexivity|exact K].
    - destruct (csample1 G C fuel node na draws) as [(new, d1)|] eqn:S1; [|discriminate]. cbn [bind] in E. destruct (csample1_ok _ _ _ _ _ _ S1) as (cs & -> & K).
      destruct (negb (str_eqb parent (pre ++ text (Node node cs) ++ post)) || _); [injection E as <- <-; exists cs; split; [reflexivity|exact K]|]. apply (IH _ _ _ _ E). intros c [= <-]. exists cs. split; [reflexivity|exact K].
  Qed.
  Lemma after_last c : c <> [] -> after c <> [].
  Proof. destruct c as [|((n, l), r) c]; [contradiction|]. intros _ E. cbn [after] in E. apply app_eq_nil in E. destruct E as (_ & E). apply app_eq_nil in E. destruct E as (_ & E). discriminate. Qed.
  Lemma before_long f c : str_eqb (before (f :: c)) [chr_blank] = false.
  Proof. apply str_eqb_neq. destruct f as ((n, l), r). cbn [before]. discriminate. Qed.
  Lemma cmutate_ok na fuel s t i c n cs patience draws r d : grammar_ok G -> derived G s t -> begins t i c n cs -> cmutate G C na fuel (text t) i n patience draws = Ok (r, d) ->
    exists us, r = text (plug c (Node n us)) /\ derived G s (plug c (Node n us)) /\ obeys G C (Node n us) /\ (c <> [] -> exists l, na (before c) (after c) = Ok l /\ ~ In (n, map root us) l).
  Proof.
    intros O D (-> & -> & _) E. unfold cmutate in E. rewrite (removed_place G c n cs O (proj2 D)) in E. cbn [bind] in E. destruct c as [|f c].
    - cbn [str_eqb] in E. rewrite str_eqb_refl in E. cbn [orb bind] in E. destruct (cmutate_loop_ok _ _ _ _ _ _ _ _ _ _ _ E) as (us & -> & DU & OU & NU); [discriminate|]. exists us.
      split; [exact (strip_plug [] (Node n us) n eq_refl)|]. split; [exact (plug_derived G [] _ s n _ D eq_refl DU)|]. split; [exact OU|]. intros []. reflexivity.
    - rewrite before_long in E. assert (AL := after_last (f :: c) ltac:(discriminate)). destruct (after (f :: c)) as [|a post] eqn:AF; [contradiction|]. cbn [orb] in E.
      destruct (na (before (f :: c)) (a :: post)) as [l|] eqn:N; [|discriminate]. cbn [bind] in E. rewrite <- AF in E, N; try rewrite <- AF. destruct (cmutate_loop_ok _ _ _ _ _ _ _ _ _ _ _ E) as (us & -> & DU & OU & NU); [discriminate|]. exists us.
      split; [exact (strip_plug (f :: c) (Node n us) n eq_refl)|]. split; [exact (plug_derived G (f :: c) _ s n _ D eq_refl DU)|]. split; [exact OU|]. intros _. exists l. auto.
  Qed.
End Sample.

Lemma not_allowed_in o ps b p : In p (not_allowed o ps b) <-> In p ps /\ b = false /\ exists w, o = Some w /\ snd p = [Tm w].
Proof.
  unfold not_allowed. rewrite filter_In. split.
  - intros (I & E). apply andb_prop in E. destruct E as (E1 & E2). split; [exact I|]. split; [destruct b; [discriminate|reflexivity]|]. destruct (snd p) as [|[w|m] [|? ?]]; try discriminate. destruct o as [o|]; [|discriminate]. apply str_eqb_eq in E2. subst o. exists w. auto.
  - intros (I & -> & w & -> & E). split; [exact I|]. rewrite E. cbn [negb andb]. apply str_eqb_refl.
Qed.
(** ** Functions *)
Lemma put_skip (l : list (option str)) : forall k s l', put l k s = Ok l' -> l' = firstn k l ++ Some s :: skipn (S k) l.
Proof.
  induction l as [|x l IH]; intros k s l' E; [destruct k; discriminate|]. destruct k as [|k]; cbn [put] in E; [injection E as <-; reflexivity|]. destruct (put l k s) as [m|] eqn:P; [|discriminate]. cbn [bind] in E. injection E as <-. rewrite (IH _ _ _ P). reflexivity.
Qed.
Definition known (l : list tree) : list (option str) := map (fun c => Some (text c)) (inner l).
Lemma known_length l : length (known l) = length (inner l). Proof. apply map_length. Qed.
Lemma goes_function G o unknown f s0 der0 : forall l past der i m ds r, goes G (by_function (Some o) unknown f) (s0, der, i) (l ++ Node m ds :: r) ->
  i = length (inner past) -> der = known past ++ skipn i der0 -> In (m, map root ds) G -> forbids (f s0 (known (past ++ l) ++ skipn (length (inner (past ++ l))) der0)) (length (inner (past ++ l))) -> map root ds <> [Tm o].
Proof.
  induction l as [|c l IH]; intros past der i m ds r GO EI ED IG FO.
  - rewrite app_nil_r in FO. cbn [List.app] in GO. inversion GO as [| |st0 m0 ds1 cs0 na st' RF NI OB TO GO1]; subst. cbn [by_function refused] in RF. intros ER. rewrite ER in *. unfold refused_by in RF.
    assert (J : In (m, [Tm o]) (not_allowed (Some o) (productions_of G m) false)) by (apply filter_In; split; [apply filter_In; split; [exact IG|cbn [fst]; destruct (list_eq_dec ascii_dec m m); [reflexivity|contradiction]]|cbn; apply str_eqb_refl]).
    destruct (f s0 _) as [bs|b|]; cbn [forbids] in FO; [rewrite FO in RF|subst b|destruct FO]; injection RF as <-; exact (NI J).
  - cbn [List.app] in GO. inversion GO as [|st0 w cs0 GO1|st0 m0 ds1 cs0 na st' RF NI OB TO GO1]; subst.
    + apply (IH (past ++ [Leaf w]) _ _ m ds r GO1); rewrite ?app_nil_r; unfold known, inner in *; rewrite ?filter_app, ?app_nil_r in *; cbn [filter] in *; rewrite ?app_nil_r in *; [reflexivity|reflexivity|exact IG|exact FO].
    + cbn [by_function told] in TO. destruct (put _ _ _) as [der'|] eqn:PU; [|discriminate]. cbn [bind] in TO. injection TO as <-. apply put_skip in PU.
      apply (IH (past ++ [Node m0 ds1]) _ _ m ds r GO1); [unfold inner; rewrite filter_app, app_length; cbn; lia| |exact IG|rewrite <- app_assoc; exact FO].
      rewrite PU. assert (L : length (inner past) = length (known past)) by (rewrite known_length; reflexivity). rewrite L at 1 3. rewrite firstn_app, Nat.sub_diag, firstn_all, firstn_O, app_nil_r. rewrite skipn_app. replace (skipn (S (length (known past))) (known past)) with (@nil (option str)) by (symmetry; apply skipn_all2; lia).
      unfold known at 4, inner at 2. rewrite filter_app, map_app. cbn [filter map]. rewrite <- app_assoc. cbn [List.app]. f_equal. f_equal. rewrite <- L. replace (S (length (inner past)) - length (inner past)) with 1 by lia. generalize (length (inner past)) as q. generalize der0 as e. clear. intros e q. revert e. induction q as [|q IH]; intros [|x l]; try reflexivity. apply IH.
Qed.
Lemma obeys_function G o unknown f n cs l m ds r : obeys G (by_function (Some o) unknown f) (Node n cs) -> cs = l ++ Node m ds :: r -> In (m, map root ds) G ->
  exists s0 der0, hd_error (map root cs) = Some s0 /\ unknown s0 = Ok der0 /\
    (forbids (f s0 (map (fun c => Some (text c)) (inner l) ++ skipn (length (inner l)) der0)) (length (inner l)) -> map root ds <> [Tm o]).
Proof.
  intros O E IG. inversion O as [|n0 c cs0 st B GO]; subst. cbn [by_function begin] in B. destruct (unknown (root c)) as [der0|] eqn:U; [|discriminate]. cbn [bind] in B. injection B as <-. exists (root c), der0. split; [reflexivity|]. split; [exact U|]. intros F.
  rewrite H0 in GO. apply (goes_function G o unknown f (root c) der0 l [] der0 0 m ds r GO); [reflexivity|reflexivity|exact IG|exact F].
Qed.
(** ** Objects *)
Lemma goes_none G {O : Type} init get upd cs : goes G (@by_object O init get upd) None cs -> inner cs = [].
Proof. induction cs as [|c cs IH]; intros H; [reflexivity|]. inversion H as [|st0 w cs0 GO1|st0 m0 ds1 cs0 na st' RF NI OB TO GO1]; subst; [exact (IH GO1)|]. discriminate. Qed.
Lemma obeys_none G {O : Type} init get upd n c cs : obeys G (@by_object O init get upd) (Node n (c :: cs)) -> init (root c) = None -> inner (c :: cs) = [].
Proof. intros H E. inversion H as [|n0 c0 cs0 st B GO]; subst. cbn [by_object begin] in B. rewrite E in B. injection B as <-. exact (goes_none G init get upd _ GO). Qed.
(** ** Crossover *)
Lemma starts_with_app (p l : str) : starts_with p (p ++ l) = true.
Proof. induction p as [|a p IH]; [reflexivity|]. cbn [starts_with List.app]. rewrite Ascii.eqb_refl. exact IH. Qed.
Lemma rfind_found (p a b : str) : rfind p (a ++ p ++ b) <> None.
Proof.
  induction a as [|x a IH]; cbn [List.app].
  - destruct (p ++ b) as [|y l] eqn:E; cbn [rfind]; [rewrite <- E, starts_with_app; discriminate|]. destruct (rfind p l); [discriminate|]. rewrite <- E, starts_with_app. discriminate.
  - cbn [rfind]. destruct (rfind p (a ++ p ++ b)); [discriminate|contradiction].
Qed.
Lemma zero_away ps m : In (m, [Tm zero]) ps -> ~ In "("%char m -> ~ In ")"%char m -> turned_away (not_allowed (Some zero) ps false) (text (Node m [Leaf zero])) = true.
Proof.
  intros I NO NC. unfold turned_away. assert (E1 : existsb (fun p : production => match snd p with Tm w :: _ => str_eqb w zero | _ => false end) (not_allowed (Some zero) ps false) = true).
  { apply existsb_exists. exists (m, [Tm zero]). split; [|reflexivity]. apply filter_In. split; [exact I|reflexivity]. }
  assert (T : text (Node m [Leaf zero]) = ("("%char :: m ++ [" "%char]) ++ zero ++ [")"%char]) by (cbn [text map List.concat List.app]; rewrite app_nil_r, <- !app_assoc; reflexivity). rewrite T. apply (count_occ_not_In ascii_dec) in NO, NC.
  apply andb_true_intro. split; [apply andb_true_intro; split; [apply andb_true_intro; split; [exact E1|]|]|].
  - unfold occurs. destruct (rfind zero (("("%char :: m ++ [" "%char]) ++ zero ++ [")"%char])) eqn:R; [reflexivity|exfalso; exact (rfind_found _ _ _ R)].
  - change chr_open with "("%char. rewrite count_occ_app. change ("("%char :: m ++ [" "%char]) with (["("%char] ++ m ++ [" "%char]). rewrite !count_occ_app, NO. reflexivity.
  - change chr_close with ")"%char. rewrite count_occ_app. change ("("%char :: m ++ [" "%char]) with (["("%char] ++ m ++ [" "%char]). rewrite !count_occ_app, NC. reflexivity.
Qed.
(** ** A place that is not found *)
Definition str_of (s : string) : str := Eval lazy in list_ascii_of_string s.
Definition gr_sum : grammar := Eval lazy in [(str_of "S", [Tm (str_of "sum"); Nt (str_of "S"); Nt (str_of "S")]); (str_of "S", [Tm (str_of "id")])].
Definition s_id : tree := Node (str_of "S") [Leaf (str_of "id")].
Definition s_sum : tree := Node (str_of "S") [Leaf (str_of "sum"); s_id; s_id].
Definition s_place : place := [(str_of "S", [Leaf (str_of "sum"); s_id], [])].
Ltac by_cases I := repeat (destruct I as [I|I]; [injection I as <- <-|]); [..|destruct I].
Ltac no_in := let X := fresh in intros X; lazy in X; intuition discriminate.
Ltac ok_name := split; [discriminate|split; [no_in|split; no_in]].
Ltac ok_word := split; [no_in|split; [apply balanced_solid; no_in|intros ? ? [= <- <-]; no_in]].
Ltac ok_grammar := intros ? ? I; by_cases I; (split; [ok_name|split; [discriminate|repeat (constructor; [first [ok_word|ok_name]|]); constructor]]).
Ltac ok_tree := split; [reflexivity|repeat split; lazy; intuition congruence].
Lemma gr_sum_ok : grammar_ok gr_sum. Proof. ok_grammar. Qed.
Lemma no_mutation : exists G n t i c m cs, grammar_ok G /\ derived G n t /\ begins t i c m cs /\ c <> [] /\ (exists us, derived G m (Node m us) /\ us <> cs) /\
  (forall p, In p G -> exists w rhs, snd p = Tm w :: rhs) /\
  forall St (C : constraints St) none_operation f derivation fuel patience draws, cmutate G C (na_by_function G none_operation f m derivation) fuel (text t) i m patience draws = Err RuntimeError.
Proof.
  exists gr_sum, (str_of "S"), s_sum, 4, s_place, (str_of "S"), [Leaf (str_of "id")]. split; [exact gr_sum_ok|]. split; [split; [reflexivity|cbn; repeat (split; auto 10)]|]. split; [split; [reflexivity|split; [reflexivity|discriminate]]|]. split; [discriminate|].
  split; [exists [Leaf (str_of "sum"); s_id; s_id]; split; [split; [reflexivity|cbn; repeat (split; auto 10)]|discriminate]|]. split; [intros p [<-|[<-|[]]]; eexists; eexists; reflexivity|].
  intros St C no f der fuel patience draws. unfold cmutate. assert (R : remove_subtree (text s_sum) 4 = Ok (before s_place, text s_id, after s_place)) by (lazy; reflexivity). rewrite R. cbn [bind]. assert (B : str_eqb (before s_place) [chr_blank] = false) by (lazy; reflexivity). rewrite B.
  change (after s_place) with [")"%char]. cbn [orb]. unfold na_by_function. assert (F : find_topology gr_sum (before s_place) = Err RuntimeError) by (lazy; reflexivity). rewrite F. reflexivity.
Qed.
