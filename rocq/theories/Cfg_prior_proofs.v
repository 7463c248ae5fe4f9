(** The probability of a tree. *)
From Verif Require Import Py Cfg_model Cfg_spec Cfg_text_proofs Cfg_sample_proofs.
From Coq Require Import Sorted.
Open Scope list_scope.
Local Notation length := List.length.

(** ** Symbols by length *)
Definition longer (a b : str) : Prop := length b <= length a.
Lemma insert_len_In s l x : In x (insert_len s l) <-> x = s \/ In x l.
Proof.
  induction l as [|t l IH]; cbn [insert_len]; [cbn; intuition|]. destruct (length t <=? length s)%nat; cbn [In]; [intuition|]. rewrite IH. intuition.
Qed.
Lemma insert_len_sorted s l : StronglySorted longer l -> StronglySorted longer (insert_len s l).
Proof.
  induction 1 as [|t l SS IH F]; cbn [insert_len]; [repeat constructor|]. destruct (Nat.leb_spec (length t) (length s)) as [LE|GT].
  - constructor; [constructor; assumption|]. constructor; [exact LE|]. eapply Forall_impl; [|exact F]. intros a A. unfold longer in *. lia.
  - constructor; [exact IH|]. apply Forall_forall. intros x X. apply insert_len_In in X. destruct X as [->|X]; [unfold longer; lia|]. rewrite Forall_forall in F. apply F, X.
Qed.
Lemma sort_len_In l x : In x (sort_len l) <-> In x l.
Proof. induction l as [|a l IH]; [reflexivity|]. change (sort_len (a :: l)) with (insert_len a (sort_len l)). rewrite insert_len_In, IH. cbn. intuition. Qed.
Lemma sort_len_sorted l : StronglySorted longer (sort_len l).
Proof. induction l as [|a l IH]; [constructor|]. apply insert_len_sorted, IH. Qed.
Lemma find_longest f sym l : StronglySorted longer l -> In sym l -> f sym = true -> (forall s, In s l -> f s = true -> length sym <= length s -> s = sym) -> find f l = Some sym.
Proof.
  induction 1 as [|h l SS IH F]; intros I FS U; [destruct I|]. cbn [find]. destruct (f h) eqn:FH.
  - f_equal. apply U; [left; reflexivity|exact FH|]. destruct I as [->|I]; [lia|]. rewrite Forall_forall in F. apply F, I.
  - apply IH; [destruct I as [->|I]; [congruence|exact I]|exact FS|]. intros s S. apply U. right. exact S.
Qed.
Lemma starts_with_app p l : starts_with p (p ++ l) = true.
Proof. induction p as [|a p IH]; [reflexivity|]. cbn [List.app starts_with]. rewrite Ascii.eqb_refl, IH. reflexivity. Qed.
Lemma starts_with_prefix p l : starts_with p l = true -> exists r, l = p ++ r.
Proof.
  revert l. induction p as [|a p IH]; intros l E; [exists l; reflexivity|]. destruct l as [|b l]; [discriminate|]. cbn [starts_with] in E. apply andb_prop in E. destruct E as (A & B).
  apply Ascii.eqb_eq in A. subst b. destruct (IH l B) as (r & ->). exists r. reflexivity.
Qed.
(** what follows a symbol *)
Definition ends (y : str) : Prop := exists y', y = " "%char :: y' \/ y = ")"%char :: y'.
Lemma find_symbol syms sym y : (forall s, In s syms -> solid s) -> In sym syms -> ends y ->
  find (fun s => starts_with s (firstn (length (hd [] (sort_len syms))) (sym ++ y))) (sort_len syms) = Some sym.
Proof.
  intros SO I (y' & Y). assert (I' : In sym (sort_len syms)) by (apply sort_len_In; exact I). pose proof (sort_len_sorted syms) as SS.
  assert (N : length sym <= length (hd [] (sort_len syms))).
  { inversion SS as [E|h l _ F E]; [rewrite <- E in I'; destruct I'|]. rewrite <- E in I'. cbn [hd]. destruct I' as [->|I']; [lia|]. rewrite Forall_forall in F. apply F, I'. }
  apply find_longest; auto.
  - rewrite firstn_app, firstn_all2 by lia. apply starts_with_app.
  - intros s S E L. apply starts_with_prefix in E. destruct E as (r & E). assert (P : exists r', sym ++ y = s ++ r').
    { exists (r ++ skipn (length (hd [] (sort_len syms))) (sym ++ y)). rewrite app_assoc, <- E. symmetry. apply firstn_skipn. }
    destruct P as (r' & P). destruct (app_split sym y s r' P) as [(z & E1 & E2)|(z & E1 & E2)].
    + subst sym. rewrite app_length in L. destruct z; [rewrite app_nil_r; reflexivity|cbn in L; lia].
    + subst s. destruct z as [|b z]; [apply app_nil_r|]. exfalso. apply (proj1 (sort_len_In syms _)) in S. destruct (SO _ S) as (_ & SB). apply (SB b); [apply in_or_app; right; left; reflexivity|].
      destruct Y as [Y|Y]; rewrite Y in E2; injection E2 as <- _; cbn; auto.
Qed.

(** ** Equality *)
Lemma symbol_eqb_eq a b : symbol_eqb a b = true <-> a = b.
Proof. destruct a, b; cbn [symbol_eqb]; rewrite ?str_eqb_eq; split; congruence. Qed.
Lemma symbols_eqb_eq l m : list_eqb symbol_eqb l m = true <-> l = m.
Proof.
  revert m. induction l as [|a l IH]; intros [|b m]; cbn [list_eqb]; try (split; congruence). split; [intros E; apply andb_prop in E; destruct E as (A & B); apply symbol_eqb_eq in A; apply IH in B; congruence|].
  intros [= -> ->]. apply andb_true_intro. split; [apply symbol_eqb_eq; reflexivity|apply IH; reflexivity].
Qed.
Lemma prod_eqb_eq p q : prod_eqb p q = true <-> p = q.
Proof.
  destruct p as (n, r), q as (m, s). unfold prod_eqb. cbn [fst snd]. split; [intros E; apply andb_prop in E; destruct E as (A & B); apply str_eqb_eq in A; apply symbols_eqb_eq in B; congruence|].
  intros [= -> ->]. apply andb_true_intro. split; [apply str_eqb_refl|apply symbols_eqb_eq; reflexivity].
Qed.
Lemma index_of_In p l : In p l -> exists i, index_of p l = Some i /\ nth_error l i = Some p.
Proof.
  induction l as [|q l IH]; [intros []|]. intros I. cbn [index_of]. destruct (prod_eqb q p) eqn:E; [exists 0; apply prod_eqb_eq in E; subst q; split; reflexivity|].
  destruct I as [->|I]; [exfalso; assert (X : prod_eqb p p = true) by (apply prod_eqb_eq; reflexivity); congruence|]. destruct (IH I) as (i & -> & N). exists (S i). split; [reflexivity|exact N].
Qed.
Lemma rules_In G n p : In p (rules G n) <-> In p G /\ fst p = n. Proof. unfold rules. rewrite filter_In, str_eqb_eq. reflexivity. Qed.
Lemma keep_filter f c ps : Forall (fun p : production => c < length (snd p)) ps -> keep f c ps = Ok (filter (fun p => match nth_error (snd p) c with Some s => f s | None => false end) ps).
Proof.
  induction 1 as [|p ps L _ IH]; [reflexivity|]. cbn [keep filter]. destruct (nth_error (snd p) c) as [s|] eqn:E; [|apply nth_error_None in E; lia]. rewrite IH. cbn [bind]. destruct (f s); reflexivity.
Qed.
Lemma filter_ext_In {A} (f g : A -> bool) l : (forall a, In a l -> f a = g a) -> filter f l = filter g l.
Proof. induction l as [|a l IH]; [reflexivity|]. intros H. cbn [filter]. rewrite (H a) by (left; reflexivity). rewrite IH by (intros b B; apply H; right; exact B). reflexivity. Qed.
Lemma filter_filter {A} (f g : A -> bool) l : filter f (filter g l) = filter (fun a => g a && f a) l.
Proof. induction l as [|a l IH]; [reflexivity|]. cbn [filter]. destruct (g a); cbn [filter andb]; rewrite IH; reflexivity. Qed.
Lemma firstn_S_nth {A} (l : list A) k a : nth_error l k = Some a -> firstn (S k) l = firstn k l ++ [a].
Proof. revert k. induction l as [|b l IH]; intros [|k] E; try discriminate; [injection E as ->; reflexivity|]. cbn [firstn List.app]. f_equal. apply (IH k E). Qed.

Section Prior.
  Context {T : Type}.
  Variables (one zero : T) (mul add : T -> T -> T) (ln_eps : T -> T).
  Variable G : grammar.
  Variable prior : list (key * list T).
  Hypothesis CL : clear G.
  Variable W : production -> T.
  Hypothesis HW : forall p, In p G -> exists i ws, index_of p (rules G (fst p)) = Some i /\ prior_at prior (KStr (fst p)) = Some ws /\ nth_error ws i = Some (W p).
  Notation runl := (prior_loop mul add ln_eps G prior).
  Notation run := (runl false).

  (** productions that begin with [done] *)
  Definition cand (n : str) (done : list symbol) : list production := filter (fun p => list_eqb symbol_eqb (firstn (length done) (snd p)) done) (rules G n).
  Definition matches (s : symbol) (c : nat) (p : production) : bool := match nth_error (snd p) c with Some x => symbol_eqb x s | None => false end.
  Lemma cand_long n done rest : rest <> [] -> In (n, done ++ rest) G -> Forall (fun p => length done < length (snd p)) (cand n done).
  Proof.
    intros NE I. apply Forall_forall. intros (m, r) C. apply filter_In in C. destruct C as (C & E). apply rules_In in C. destruct C as (C & M). cbn [fst snd] in *. subst m. apply symbols_eqb_eq in E.
    destruct (Nat.lt_ge_cases (length done) (length r)) as [L|L]; [exact L|]. exfalso. rewrite firstn_all2 in E by exact L. subst r.
    assert (X := proj2 (proj2 CL) n done (done ++ rest) C I (ex_intro _ rest eq_refl)). apply (f_equal (@length symbol)) in X. rewrite app_length in X. destruct rest; [congruence|cbn in X; lia].
  Qed.
  Lemma cand_step n done s : filter (matches s (length done)) (cand n done) = cand n (done ++ [s]).
  Proof.
    unfold cand. rewrite filter_filter. apply filter_ext_In. intros p _. unfold matches. rewrite app_length, Nat.add_1_r.
    destruct (nth_error (snd p) (length done)) as [x|] eqn:E.
    - rewrite (firstn_S_nth _ _ _ E). apply Bool.eq_iff_eq_true. rewrite andb_true_iff, symbol_eqb_eq, !symbols_eqb_eq. split; [intros (-> & ->); reflexivity|]. intros X. apply app_inj_tail in X. exact X.
    - rewrite andb_false_r. symmetry. apply not_true_is_false. intros X. apply symbols_eqb_eq in X. apply (f_equal (@length symbol)) in X. rewrite firstn_length, app_length in X. apply nth_error_None in E. change (length [s]) with 1 in X. lia.
  Qed.
  Lemma cand_nil n : cand n [] = rules G n.
  Proof. unfold cand. induction (rules G n) as [|p l IH]; [reflexivity|]. cbn [filter]. rewrite IH. reflexivity. Qed.
  Lemma cand_full n rhs : In (n, rhs) G -> exists l, cand n rhs = (n, rhs) :: l.
  Proof.
    intros I. destruct (cand n rhs) as [|(m, r) l] eqn:E.
    - exfalso. assert (X : In (n, rhs) (cand n rhs)) by (apply filter_In; split; [apply rules_In; split; [exact I|reflexivity]|cbn [snd]; rewrite firstn_all; apply symbols_eqb_eq; reflexivity]). rewrite E in X. exact X.
    - assert (X : In (m, r) (cand n rhs)) by (rewrite E; left; reflexivity). apply filter_In in X. destruct X as (X & Y). apply rules_In in X. destruct X as (X & M). cbn [fst snd] in *. subst m. apply symbols_eqb_eq in Y.
      assert (P : prefix rhs r) by (exists (skipn (length rhs) r); rewrite <- Y at 1; symmetry; apply firstn_skipn). rewrite (proj2 (proj2 CL) n rhs r I X P). exists l. reflexivity.
  Qed.

  (** symbols *)
  Lemma known_solid s : In s (nonterminals G ++ terminals G) -> solid s.
  Proof.
    intros I. apply in_app_or in I. destruct I as [I|I].
    - apply nonterminals_In, in_map_iff in I. destruct I as ((n, rhs) & <- & I). apply (proj1 (proj2 CL) n rhs I).
    - apply nodup_In, filter_In in I. destruct I as (I & _). apply in_map_iff in I. destruct I as (x & <- & I). apply in_concat in I. destruct I as (rhs & R & I). apply in_map_iff in R. destruct R as ((n, r) & <- & R).
      destruct (proj1 (proj2 CL) n r R) as (_ & F). rewrite Forall_forall in F. specialize (F x I). destruct x as [w|m]; [apply F|]. apply in_map_iff in F. destruct F as ((m', r') & <- & F). apply (proj1 (proj2 CL) m' r' F).
  Qed.
  Lemma terminal_In n rhs w : In (n, rhs) G -> In (Tm w) rhs -> In w (terminals G).
  Proof.
    intros I J. destruct (proj1 (proj2 CL) n rhs I) as (_ & F). rewrite Forall_forall in F. destruct (F (Tm w) J) as (_ & NW).
    apply nodup_In, filter_In. split; [apply in_map_iff; exists (Tm w); split; [reflexivity|]; apply in_concat; exists rhs; split; [apply in_map_iff; exists (n, rhs); auto|exact J]|].
    apply negb_true_iff, not_true_is_false. intros M. apply mem_In, nonterminals_In in M. contradiction.
  Qed.
  Lemma not_terminal n : In n (map fst G) -> mem n (terminals G) = false.
  Proof.
    intros I. apply not_true_is_false. intros M. apply mem_In, nodup_In, filter_In in M. destruct M as (_ & M). apply negb_true_iff in M. apply not_true_iff_false in M. apply M, mem_In, nonterminals_In, I.
  Qed.

  Lemma skip_over log last x : forall y a q acc, runl log last (x ++ y) (Some a) (length x) q acc = runl log last y (Some (List.last x a)) 0 q acc.
  Proof.
    induction x as [|b x IH]; intros y a q acc; [reflexivity|]. cbn [List.app length prior_loop]. rewrite IH. destruct x as [|b' x]; [reflexivity|].
    replace (List.last (b :: b' :: x) a) with (List.last (b' :: x) a) by reflexivity. replace (List.last (b' :: x) b) with (List.last (b' :: x) a); [reflexivity|].
    clear. revert b'. induction x as [|c x IH]; intros b'; [reflexivity|]. change (List.last (c :: x) a = List.last (c :: x) b). apply IH.
  Qed.
  Lemma last_In {A} (x : list A) a : In (List.last x a) (a :: x).
  Proof. induction x as [|b x IH]; [left; reflexivity|]. destruct x as [|c x]; [right; left; reflexivity|]. change (List.last (b :: c :: x) a) with (List.last (c :: x) a). destruct IH as [E|I]; [left; exact E|right; right; exact I]. Qed.
  Lemma solid_char s a : solid s -> In a s -> whitespace a = false /\ Ascii.eqb a chr_open = false /\ Ascii.eqb a chr_close = false /\ a <> " "%char.
  Proof.
    intros (_ & S) I. specialize (S a I). repeat split.
    - apply not_true_is_false. intros X. unfold whitespace in X. apply orb_prop in X. destruct X as [X|X]; [apply orb_prop in X; destruct X as [X|X]|].
      + apply Ascii.eqb_eq in X. subst a. apply S. left. reflexivity.
      + apply Nat.eqb_eq in X. apply S. do 3 right. left. rewrite <- (ascii_nat_embedding a). unfold code in X. rewrite X. reflexivity.
      + apply Nat.eqb_eq in X. apply S. do 4 right. left. rewrite <- (ascii_nat_embedding a). unfold code in X. rewrite X. reflexivity.
    - apply not_true_is_false. intros X. apply Ascii.eqb_eq in X. subst a. apply S. right. left. reflexivity.
    - apply not_true_is_false. intros X. apply Ascii.eqb_eq in X. subst a. apply S. do 2 right. left. reflexivity.
    - intros ->. apply S. left. reflexivity.
  Qed.
  Lemma take_word log last sym y prev q acc q2 : In sym (nonterminals G ++ terminals G) -> ends y -> take_symbol G sym q = Ok q2 ->
    exists a, a <> " "%char /\ runl log last (sym ++ y) prev 0 q acc = runl log last y (Some a) 0 q2 acc.
  Proof.
    intros I Y TK. pose proof (known_solid sym I) as SO. pose proof (find_symbol _ sym y known_solid I Y) as F. destruct sym as [|a s]; [destruct SO; congruence|].
    destruct (solid_char _ a SO (or_introl eq_refl)) as (C1 & C2 & C3 & C4). exists (List.last s a). split.
    - destruct (solid_char (a :: s) (List.last s a) SO (last_In s a)) as (_ & _ & _ & X). exact X.
    - cbn [List.app prior_loop] in *. rewrite C1, C2, C3, F. cbv iota zeta. cbn [andb]. rewrite TK. cbn [bind]. apply skip_over.
  Qed.

  Definition pay (ps : list production) (acc : T) : T := fold_left (fun x p => mul x (W p)) ps acc.
  Definition runs (t : tree) : Prop := parse G t -> match t with Leaf w => solid w /\ In w (terminals G) | Node _ _ => True end ->
    forall last y q ps c acc, ends y -> incl ps G -> Forall (fun p => c < length (snd p)) ps ->
    exists a, a <> " "%char /\ run last (text t ++ y) (Some " "%char) 0 ((ps, c) :: q) acc = run last y (Some a) 0 ((filter (matches (root t) c) ps, S c) :: q) (pay (used t) acc).
  Lemma run_body n : forall cs, Forall runs cs -> forall last done y q acc a, a <> " "%char -> In (n, done ++ map root cs) G -> Forall (parse G) cs ->
    run last (kids cs ++ ")"%char :: y) (Some a) 0 ((cand n done, length done) :: q) acc = run last y (Some ")"%char) 0 q (pay (List.concat (map used cs) ++ [(n, done ++ map root cs)]) acc).
  Proof.
    induction 1 as [|k ks RK _ IH]; intros last done y q acc a NA I PK.
    - cbn [map List.concat List.app] in *. rewrite app_nil_r in *. destruct (cand_full n done I) as (l & ->). cbn [prior_loop]. change (whitespace ")") with false. change (Ascii.eqb ")" chr_open) with false. change (Ascii.eqb ")" chr_close) with true. cbv iota.
      replace (Ascii.eqb a chr_blank) with false by (symmetry; apply not_true_is_false; intros X; apply Ascii.eqb_eq in X; exact (NA X)). cbn [negb andb]. unfold close_rule.
      destruct (HW (n, done) I) as (i & ws & H1 & H2 & H3). cbn [fst] in *. rewrite H1, H2, H3. reflexivity.
    - inversion PK as [|? ? PK1 PK2]; subst. cbn [map List.concat List.app] in *. cbn [prior_loop]. change (whitespace " ") with true. cbv iota. rewrite <- (app_assoc (text k)).
      assert (IR : In (root k) (done ++ root k :: map root ks)) by (apply in_or_app; right; left; reflexivity).
      assert (LF : match k with Leaf w => solid w /\ In w (terminals G) | Node _ _ => True end).
      { destruct k as [w|]; [|exact Logic.I]. cbn [root] in IR. assert (X := terminal_In n _ w I IR). split; [apply known_solid, in_or_app; right; exact X|exact X]. }
      destruct (RK PK1 LF last (kids ks ++ ")"%char :: y) q (cand n done) (length done) acc) as (b & NB & ->).
      + destruct ks as [|k2 ks]; [exists y; right; reflexivity|]. cbn [map List.concat List.app]. eexists. left. reflexivity.
      + intros p P. apply filter_In in P. destruct P as (P & _). apply rules_In in P. apply P.
      + eapply cand_long; [|exact I]. discriminate.
      + rewrite cand_step. replace (S (length done)) with (length (done ++ [root k])) by (rewrite app_length; cbn; lia). rewrite (IH last (done ++ [root k]) y q _ b NB); [|rewrite <- app_assoc; exact I|exact PK2].
        f_equal. rewrite <- (app_assoc done). cbn [List.app]. unfold pay. rewrite <- fold_left_app, app_assoc. reflexivity.
  Qed.
  (** a node, once its place in the parent is noted *)
  Lemma run_node n cs : Forall runs cs -> parse G (Node n cs) -> forall last y prev q q2 acc, (prev = None \/ prev = Some " "%char) -> take_symbol G n q = Ok ((rules G n, 0) :: q2) ->
    run last (text (Node n cs) ++ y) prev 0 q acc = run last y (Some ")"%char) 0 q2 (pay (used (Node n cs)) acc).
  Proof.
    intros R (I & P) last y prev q q2 acc PV TK. assert (IN : In n (nonterminals G ++ terminals G)) by (apply in_or_app; left; apply nonterminals_In; apply (in_map fst) in I; exact I).
    pose proof (known_solid n IN) as SO.
    assert (E : ends ((kids cs ++ [")"%char]) ++ y)) by (destruct cs; cbn [map List.concat List.app]; eexists; [right|left]; reflexivity).
    transitivity (run last (n ++ (kids cs ++ [")"%char]) ++ y) (Some "("%char) 0 q acc).
    - cbn [text List.app]. rewrite <- (app_assoc n). destruct n as [|b n]; [destruct SO; congruence|]. destruct (solid_char _ b SO (or_introl eq_refl)) as (_ & _ & _ & NB). cbn [List.app].
      set (rest := n ++ _). cbn [prior_loop]. change (whitespace "(") with false. change (Ascii.eqb "(" chr_open) with true. cbv iota. destruct PV as [-> | ->]; [reflexivity|].
      replace (Ascii.eqb b chr_blank) with false by (symmetry; apply not_true_is_false; intros X; apply Ascii.eqb_eq in X; exact (NB X)). rewrite andb_false_r. reflexivity.
    - destruct (take_word false last n _ (Some "("%char) q acc _ IN E TK) as (a & NA & ->). rewrite <- app_assoc. cbn [List.app].
      rewrite <- cand_nil. change (0) with (@length symbol []) at 2. rewrite (run_body n cs R last [] y q2 acc a NA I); [reflexivity|]. apply all_Forall, P.
  Qed.
  Lemma keep_symbol f s ps c : incl ps G -> Forall (fun p => c < length (snd p)) ps -> (forall p x, In p G -> In x (snd p) -> f x = symbol_eqb x s) ->
    keep f c ps = Ok (filter (matches s c) ps).
  Proof.
    intros IG L H. rewrite keep_filter by exact L. apply (f_equal (@Ok (list production))), filter_ext_In. intros p P. unfold matches. destruct (nth_error (snd p) c) as [x|] eqn:E; [|reflexivity]. apply (H p x (IG p P)), (nth_error_In _ _ E).
  Qed.
  Lemma take_nonterminal n ps c q : In n (map fst G) -> incl ps G -> Forall (fun p => c < length (snd p)) ps ->
    take_symbol G n ((ps, c) :: q) = Ok ((rules G n, 0) :: (filter (matches (Nt n) c) ps, S c) :: q).
  Proof.
    intros IN IG LN. unfold take_symbol. rewrite (not_terminal n IN). rewrite (proj2 (mem_In n (nonterminals G)) (proj2 (nonterminals_In G n) IN)).
    rewrite (keep_symbol _ (Nt n) ps c IG LN); [reflexivity|]. intros (m, rhs) x PG X. destruct x as [w|x]; cbn [symbol_str symbol_eqb]; [|reflexivity].
    apply not_true_is_false. intros E. apply str_eqb_eq in E. subst w. destruct (proj1 (proj2 CL) m rhs PG) as (_ & F). rewrite Forall_forall in F. apply (F (Tm n) X). exact IN.
  Qed.
  Lemma run_tree t : runs t.
  Proof.
    induction t as [w|n cs IH] using tree_ind'; intros P L last y q ps c acc Y IG LN.
    - destruct L as (SO & IT). destruct (take_word false last w y (Some " "%char) ((ps, c) :: q) acc ((filter (matches (Tm w) c) ps, S c) :: q)) as (a & NA & E).
      + apply in_or_app. right. exact IT.
      + exact Y.
      + unfold take_symbol. rewrite (proj2 (mem_In w (terminals G)) IT). rewrite (keep_symbol _ (Tm w) ps c IG LN) by reflexivity. reflexivity.
      + exists a. split; [exact NA|]. exact E.
    - exists ")"%char. split; [discriminate|]. rewrite (run_node n cs IH P last y (Some " "%char) _ ((filter (matches (Nt n) c) ps, S c) :: q) acc (or_intror eq_refl)); [reflexivity|].
      destruct P as (I & _). apply take_nonterminal; [apply (in_map fst) in I; exact I|exact IG|exact LN].
  Qed.
  Lemma prior_tree s t : derived G s t -> compute_prior one zero mul add ln_eps G prior false (text t) = Ok (pay (used t) one).
  Proof.
    intros (R & P). destruct t as [w|n cs]; [discriminate|]. pose proof P as (I & _). assert (IN : In n (map fst G)) by (apply (in_map fst) in I; exact I).
    unfold compute_prior. destruct (sort_len (nonterminals G ++ terminals G)) as [|h l] eqn:SE.
    - exfalso. assert (X : In n (sort_len (nonterminals G ++ terminals G))) by (apply sort_len_In, in_or_app; left; apply nonterminals_In, IN). rewrite SE in X. exact X.
    - rewrite <- (app_nil_r (text (Node n cs))) at 2. rewrite (run_node n cs (proj2 (Forall_forall _ _) (fun t _ => run_tree t)) P _ [] None [] [] one (or_introl eq_refl)); [reflexivity|].
      unfold take_symbol. rewrite (not_terminal n IN). rewrite (proj2 (mem_In n (nonterminals G)) (proj2 (nonterminals_In G n) IN)). reflexivity.
  Qed.

  (** with logarithms *)
  Hypothesis SK : forall n, prior_at prior (KNt n) = None.
  Definition fails (t : tree) : Prop := forall n cs, t = Node n cs -> parse G t -> forall last y prev q q2 acc, (prev = None \/ prev = Some " "%char) -> take_symbol G n q = Ok ((rules G n, 0) :: q2) ->
    runl true last (text t ++ y) prev 0 q acc = Err KeyError.
  Lemma fail_body n : forall cs, Forall fails cs -> forall last done y q acc a, a <> " "%char -> In (n, done ++ map root cs) G -> Forall (parse G) cs ->
    runl true last (kids cs ++ ")"%char :: y) (Some a) 0 ((cand n done, length done) :: q) acc = Err KeyError.
  Proof.
    induction 1 as [|k ks RK _ IH]; intros last done y q acc a NA I PK.
    - cbn [map List.concat List.app] in *. rewrite app_nil_r in *. destruct (cand_full n done I) as (l & ->). cbn [prior_loop]. change (whitespace ")") with false. change (Ascii.eqb ")" chr_open) with false. change (Ascii.eqb ")" chr_close) with true. cbv iota.
      replace (Ascii.eqb a chr_blank) with false by (symmetry; apply not_true_is_false; intros X; apply Ascii.eqb_eq in X; exact (NA X)). cbn [negb andb]. unfold close_rule.
      destruct (HW (n, done) I) as (i & ws & H1 & H2 & H3). cbn [fst] in *. rewrite H1, SK. reflexivity.
    - inversion PK as [|? ? PK1 PK2]; subst. cbn [map List.concat List.app] in *. cbn [prior_loop]. change (whitespace " ") with true. cbv iota. rewrite <- (app_assoc (text k)).
      assert (IR : In (root k) (done ++ root k :: map root ks)) by (apply in_or_app; right; left; reflexivity).
      assert (IC : incl (cand n done) G) by (intros p P; apply filter_In in P; destruct P as (P & _); apply rules_In in P; apply P).
      assert (LC : Forall (fun p => length done < length (snd p)) (cand n done)) by (eapply cand_long; [|exact I]; discriminate).
      destruct k as [w|m cs].
      + cbn [root text] in *. assert (X := terminal_In n _ w I IR).
        destruct (take_word true last w (kids ks ++ ")"%char :: y) (Some " "%char) ((cand n done, length done) :: q) acc ((filter (matches (Tm w) (length done)) (cand n done), S (length done)) :: q)) as (b & NB & ->).
        * apply in_or_app. right. exact X.
        * destruct ks as [|k2 ks]; [exists y; right; reflexivity|]. cbn [map List.concat List.app]. eexists. left. reflexivity.
        * unfold take_symbol. rewrite (proj2 (mem_In w (terminals G)) X). rewrite (keep_symbol _ (Tm w) _ _ IC LC) by reflexivity. reflexivity.
        * rewrite cand_step. replace (S (length done)) with (length (done ++ [Tm w])) by (rewrite app_length; cbn; lia). rewrite (IH last (done ++ [Tm w]) y q _ b NB); [reflexivity|rewrite <- app_assoc; exact I|exact PK2].
      + apply (RK m cs eq_refl PK1 last _ _ _ ((filter (matches (Nt m) (length done)) (cand n done), S (length done)) :: q) _ (or_intror eq_refl)).
        destruct PK1 as (J & _). assert (IN : In m (map fst G)) by (apply (in_map fst) in J; exact J). apply take_nonterminal; assumption.
  Qed.
  Lemma fail_tree t : fails t.
  Proof.
    induction t as [w|n cs IH] using tree_ind'; intros m cs' [= <- <-] P last y prev q q2 acc PV TK. destruct P as (I & P). assert (IN : In n (nonterminals G ++ terminals G)) by (apply in_or_app; left; apply nonterminals_In; apply (in_map fst) in I; exact I).
    pose proof (known_solid n IN) as SO.
    assert (E : ends ((kids cs ++ [")"%char]) ++ y)) by (destruct cs; cbn [map List.concat List.app]; eexists; [right|left]; reflexivity).
    transitivity (runl true last (n ++ (kids cs ++ [")"%char]) ++ y) (Some "("%char) 0 q acc).
    - cbn [text List.app]. rewrite <- (app_assoc n). destruct n as [|b n]; [destruct SO; congruence|]. destruct (solid_char _ b SO (or_introl eq_refl)) as (_ & _ & _ & NB). cbn [List.app].
      set (rest := n ++ _). cbn [prior_loop]. change (whitespace "(") with false. change (Ascii.eqb "(" chr_open) with true. cbv iota. destruct PV as [-> | ->]; [reflexivity|].
      replace (Ascii.eqb b chr_blank) with false by (symmetry; apply not_true_is_false; intros X; apply Ascii.eqb_eq in X; exact (NB X)). rewrite andb_false_r. reflexivity.
    - destruct (take_word true last n _ (Some "("%char) q acc _ IN E TK) as (a & NA & ->). rewrite <- app_assoc. cbn [List.app].
      rewrite <- cand_nil. change (0) with (@length symbol []) at 2. apply (fail_body n cs IH last [] y q2 acc a NA I). apply all_Forall, P.
  Qed.
  Lemma prior_log s t : derived G s t -> compute_prior one zero mul add ln_eps G prior true (text t) = Err KeyError.
  Proof.
    intros (R & P). destruct t as [w|n cs]; [discriminate|]. pose proof P as (I & _). assert (IN : In n (map fst G)) by (apply (in_map fst) in I; exact I).
    unfold compute_prior. destruct (sort_len (nonterminals G ++ terminals G)) as [|h l] eqn:SE.
    - exfalso. assert (X : In n (sort_len (nonterminals G ++ terminals G))) by (apply sort_len_In, in_or_app; left; apply nonterminals_In, IN). rewrite SE in X. exact X.
    - rewrite <- (app_nil_r (text (Node n cs))) at 2. rewrite (fail_tree (Node n cs) n cs eq_refl P _ [] None [] [] zero (or_introl eq_refl)); [reflexivity|].
      unfold take_symbol. rewrite (not_terminal n IN). rewrite (proj2 (mem_In n (nonterminals G)) (proj2 (nonterminals_In G n) IN)). reflexivity.
  Qed.
End Prior.

(** ** With the prior as a dictionary *)
Lemma prior_at_map {T} (pr : str -> list T) names n : In n names -> prior_at (map (fun n => (KStr n, pr n)) names) (KStr n) = Some (pr n).
Proof.
  unfold prior_at. induction names as [|m names IH]; [intros []|]. intros I. cbn [map find fst key_eqb]. destruct (str_eqb m n) eqn:E; [apply str_eqb_eq in E; subst m; reflexivity|].
  destruct I as [->|I]; [rewrite str_eqb_refl in E; discriminate|]. apply IH, I.
Qed.
Lemma prior_at_none {T} (pr : str -> list T) names n : prior_at (map (fun n => (KStr n, pr n)) names) (KNt n) = None.
Proof. unfold prior_at. induction names as [|m names IH]; [reflexivity|]. cbn [map find fst key_eqb]. exact IH. Qed.
Definition W_of {T} (one : T) (G : grammar) (pr : str -> list T) (p : production) : T :=
  match index_of p (rules G (fst p)) with Some i => nth i (pr (fst p)) one | None => one end.
Lemma rules_filter G n : rules G n = filter (fun q => if list_eq_dec ascii_dec (fst q) n then true else false) G. Proof. reflexivity. Qed.
Lemma W_weight {T} (one : T) G pr p : In p G -> length (pr (fst p)) = length (rules G (fst p)) ->
  exists i, index_of p (rules G (fst p)) = Some i /\ nth_error (rules G (fst p)) i = Some p /\ nth_error (pr (fst p)) i = Some (W_of one G pr p).
Proof.
  intros I L. destruct (index_of_In p (rules G (fst p))) as (i & E & N); [apply rules_In; auto|]. exists i. split; [exact E|split; [exact N|]]. unfold W_of. rewrite E. apply nth_error_nth'. rewrite L. apply nth_error_Some. congruence.
Qed.
Lemma used_In G t : parse G t -> Forall (fun p => In p G) (used t).
Proof.
  induction t as [w|n cs IH] using tree_ind'; [constructor|]. intros (I & A). apply all_Forall in A. cbn [used]. apply Forall_app. split; [|constructor; [exact I|constructor]].
  clear I. induction cs as [|c cs IHc]; [constructor|]. inversion IH; subst. inversion A; subst. cbn [map List.concat]. apply Forall_app. split; auto.
Qed.
Lemma pay_fold {T} (mul : T -> T -> T) W ps acc : pay mul W ps acc = fold_left mul (map W ps) acc.
Proof. revert acc. induction ps as [|p ps IH]; intros acc; [reflexivity|]. cbn. apply IH. Qed.
Lemma prior_product {T} (one zero : T) mul add ln_eps G pr names s t : clear G -> incl (map fst G) names -> (forall n, In n names -> length (pr n) = length (rules G n)) -> derived G s t ->
  exists ws, Forall2 (weight G pr) (used t) ws /\ compute_prior one zero mul add ln_eps G (map (fun n => (KStr n, pr n)) names) false (text t) = Ok (fold_left mul ws one).
Proof.
  intros CL IN L D. exists (map (W_of one G pr) (used t)). split.
  - destruct D as (_ & P). pose proof (used_In G t P) as U. induction U as [|p ps I _ IH]; [constructor|]. cbn [map]. constructor; [|exact IH].
    destruct (W_weight one G pr p I) as (i & _ & N & X); [apply L, IN, in_map, I|]. exists i. split; [exact N|exact X].
  - rewrite <- pay_fold. eapply prior_tree; [exact CL| |exact D]. intros p I. destruct (W_weight one G pr p I) as (i & E & _ & X); [apply L, IN, in_map, I|].
    exists i, (pr (fst p)). split; [exact E|split; [apply prior_at_map, IN, in_map, I|exact X]].
Qed.
Lemma prior_log_fails {T} (one zero : T) mul add ln_eps G pr names s t : clear G -> incl (map fst G) names -> (forall n, In n names -> length (pr n) = length (rules G n)) -> derived G s t ->
  compute_prior one zero mul add ln_eps G (map (fun n => (KStr n, pr n)) names) true (text t) = Err KeyError.
Proof.
  intros CL IN L D. eapply (prior_log _ _ _ _ _ _ _ CL (W_of one G pr)); [|apply prior_at_none|exact D]. intros p I. destruct (W_weight one G pr p I) as (i & E & _ & X); [apply L, IN, in_map, I|].
  exists i, (pr (fst p)). split; [exact E|split; [apply prior_at_map, IN, in_map, I|exact X]].
Qed.
