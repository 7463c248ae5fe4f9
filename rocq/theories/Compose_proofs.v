(** Compositions from texts. *)
From Verif Require Import Py Cfg_model Cfg_spec Cfg_text_proofs Cfg_sample_proofs Cfg_prior_proofs Compose_model Compose_spec.
Open Scope list_scope.
Local Notation length := List.length.

Lemma max_at_least (l : list nat) n : In n l -> (n <= fold_right Nat.max 0 l)%nat.
Proof. induction l as [|m l IH]; [intros []|]. intros [->|I]; cbn [fold_right]; [lia|]. specialize (IH I). lia. Qed.
Lemma longest_word syms w y : (forall s, In s syms -> solid s) -> In w syms -> ends y -> forall k, (length w <= k)%nat -> longest syms (w ++ y) k = Ok (length w).
Proof.
  intros SO I (y' & Y). assert (W : w <> []) by apply (SO w I). assert (LW : (0 < length w)%nat) by (destruct w; [congruence|cbn; lia]).
  induction k as [|k IH]; intros L; [lia|]. cbn [longest]. destruct (Nat.eq_dec (S k) (length w)) as [E|E].
  - rewrite E, firstn_app, firstn_all, Nat.sub_diag. cbn [firstn]. rewrite app_nil_r, (proj2 (mem_In w syms) I). reflexivity.
  - replace (mem (firstn (S k) (w ++ y)) syms) with false; [apply IH; lia|]. symmetry. apply not_true_is_false. intros M. apply mem_In in M. destruct (SO _ M) as (_ & SC).
    assert (Z : exists b, In b (firstn (S k) (w ++ y)) /\ In b [" "; "("; ")"; "009"; "010"]%char).
    { rewrite firstn_app, firstn_all2 by lia. destruct (S k - length w)%nat as [|d] eqn:D; [lia|]. destruct Y as [Y|Y]; rewrite Y; cbn [firstn]; eexists; (split; [apply in_or_app; right; left; reflexivity|cbn; auto]). }
    destruct Z as (b & B1 & B2). exact (SC b B1 B2).
Qed.

Section Machine.
  Variable G : grammar.
  Variable topology : str -> bool.
  Hypothesis PL : plain_symbols G.
  Notation run := (run G topology).

  Lemma known_plain s : In s (symbols G) -> solid s.
  Proof.
    intros I. apply in_app_or in I. destruct I as [I|I].
    - apply nonterminals_In, in_map_iff in I. destruct I as ((n, rhs) & <- & I). apply (PL n rhs I).
    - apply nodup_In, filter_In in I. destruct I as (I & _). apply in_map_iff in I. destruct I as (x & <- & I). apply in_concat in I. destruct I as (rhs & R & I). apply in_map_iff in R. destruct R as ((n, r) & <- & R).
      destruct (PL n r R) as (_ & F). rewrite Forall_forall in F. specialize (F x I). destruct x as [w|m]; [apply F|]. apply in_map_iff in F. destruct F as ((m', r') & <- & F). apply (PL m' r' F).
  Qed.
  Lemma plain_terminal n rhs w : In (n, rhs) G -> In (Tm w) rhs -> In w (terminals G).
  Proof.
    intros I J. destruct (PL n rhs I) as (_ & F). rewrite Forall_forall in F. destruct (F (Tm w) J) as (_ & NW).
    apply nodup_In, filter_In. split; [apply in_map_iff; exists (Tm w); split; [reflexivity|]; apply in_concat; exists rhs; split; [apply in_map_iff; exists (n, rhs); auto|exact J]|].
    apply negb_true_iff, not_true_is_false. intros M. apply mem_In, nonterminals_In in M. contradiction.
  Qed.
  Lemma skip_rest last x : forall y a q, run last (x ++ y) (Some a) (length x) q = run last y (Some (List.last x a)) 0 q.
  Proof.
    induction x as [|b x IH]; intros y a q; [reflexivity|]. cbn [List.app length Compose_model.run]. rewrite IH. destruct x as [|b' x]; [reflexivity|].
    replace (List.last (b :: b' :: x) a) with (List.last (b' :: x) a) by reflexivity. replace (List.last (b' :: x) b) with (List.last (b' :: x) a); [reflexivity|].
    clear. revert b'. induction x as [|c x IH]; intros b'; [reflexivity|]. change (List.last (c :: x) a = List.last (c :: x) b). apply IH.
  Qed.
  (** what a symbol does *)
  Definition leaf (w : str) (q : stacks) : res stacks :=
    if topology w then Ok (mkStacks (q_nts q) ((w, O) :: q_tops q) (q_prims q) (composed q)) else put (Prim w) q.
  Definition enter (n : str) (q : stacks) : stacks := mkStacks (n :: q_nts q) (q_tops q) (q_prims q) (composed q).
  Lemma word_step last sym y prev q : In sym (symbols G) -> ends y -> exists a b, a <> " "%char /\ (b = match prev with Some b => b | None => last end \/ In b sym) /\
    run last (sym ++ y) prev 0 q = bind (take G topology sym b q) (run last y (Some a) 0).
  Proof.
    intros I Y. pose proof (known_plain sym I) as SO.
    assert (LM : (length sym <= max_match G)%nat) by (apply max_at_least, in_map, I).
    assert (LY : (1 <= length y)%nat) by (destruct Y as (y' & [-> | ->]); cbn; lia).
    destruct sym as [|a s]; [destruct SO; congruence|].
    destruct (solid_char _ a SO (or_introl eq_refl)) as (C1 & C2 & C3 & C4).
    exists (List.last s a), (match rev (a :: s) with _ :: b :: _ => b | _ => match prev with Some b => b | None => last end end). split; [|split].
    - destruct (solid_char (a :: s) (List.last s a) SO (last_In s a)) as (_ & _ & _ & X). exact X.
    - destruct (rev (a :: s)) as [|c [|b l]] eqn:R; [left; reflexivity|left; reflexivity|]. right. apply in_rev. rewrite R. right. left. reflexivity.
    - cbn [List.app Compose_model.run]. rewrite C1, C2, C3. cbn [andb].
      change (a :: s ++ y) with ((a :: s) ++ y). rewrite (longest_word (symbols G) (a :: s) y known_plain I Y) by (cbn [length] in *; rewrite app_length; lia). cbn [bind].
      rewrite firstn_app, firstn_all, Nat.sub_diag. cbn [firstn]. rewrite app_nil_r.
      destruct (take G topology (a :: s) _ q) as [q2|e]; [|reflexivity]. cbn [bind length Nat.pred]. apply skip_rest.
  Qed.
  Lemma leaf_step last w y q : In w (terminals G) -> ends y -> exists a, a <> " "%char /\ run last (w ++ y) (Some " "%char) 0 q = bind (leaf w q) (run last y (Some a) 0).
  Proof.
    intros I Y. assert (IS : In w (symbols G)) by (apply in_or_app; right; exact I). destruct (word_step last w y (Some " "%char) q IS Y) as (a & b & NA & B & ->). exists a. split; [exact NA|].
    unfold take. rewrite (proj2 (mem_In w (terminals G)) I). replace (Ascii.eqb b chr_open) with false; [reflexivity|]. symmetry.
    destruct B as [->|B]; [reflexivity|]. apply (solid_char w b (known_plain w IS) B).
  Qed.
  Lemma name_step last n y prev q : In n (map fst G) -> ends y -> exists a, a <> " "%char /\ run last (n ++ y) prev 0 q = run last y (Some a) 0 (enter n q).
  Proof.
    intros I Y. assert (IN : In n (nonterminals G)) by (apply nonterminals_In; exact I). assert (IS : In n (symbols G)) by (apply in_or_app; left; exact IN).
    destruct (word_step last n y prev q IS Y) as (a & b & NA & B & ->). exists a. split; [exact NA|].
    unfold take. replace (mem n (terminals G)) with false; [cbn [andb]; rewrite (proj2 (mem_In n (nonterminals G)) IN); reflexivity|].
    symmetry. apply not_true_is_false. intros M. apply mem_In, nodup_In, filter_In in M. destruct M as (_ & M). apply negb_true_iff in M. apply not_true_iff_false in M. apply M, mem_In, IN.
  Qed.

  (** ** Trees *)
  Fixpoint each {A} (f : A -> stacks -> res stacks) (l : list A) (q : stacks) : res stacks :=
    match l with [] => Ok q | a :: l' => bind (f a q) (each f l') end.
  Fixpoint exec (t : tree) (q : stacks) : res stacks :=
    match t with Leaf w => leaf w q | Node n cs => bind ((fix go l q := match l with [] => Ok q | c :: l' => bind (exec c q) (go l') end) cs (enter n q)) close_production end.
  Lemma exec_node n cs q : exec (Node n cs) q = bind (each exec cs (enter n q)) close_production.
  Proof. cbn [exec]. f_equal. generalize (enter n q). induction cs as [|c cs IH]; intros q'; [reflexivity|]. cbn [each]. destruct (exec c q') as [q2|e]; [apply IH|reflexivity]. Qed.
  Definition runs (t : tree) : Prop := parse G t -> match t with Leaf w => In w (terminals G) | Node _ _ => True end ->
    forall last y q, ends y -> exists a, a <> " "%char /\ run last (text t ++ y) (Some " "%char) 0 q = bind (exec t q) (run last y (Some a) 0).
  Lemma run_children n : forall cs, Forall runs cs -> forall last y q a rhs, a <> " "%char -> In (n, rhs) G -> incl (map root cs) rhs -> Forall (parse G) cs ->
    run last (kids cs ++ ")"%char :: y) (Some a) 0 q = bind (bind (each exec cs q) close_production) (run last y (Some ")"%char) 0).
  Proof.
    induction 1 as [|k ks RK _ IH]; intros last y q a rhs NA I IC PK.
    - cbn [map List.concat List.app each bind]. cbn [Compose_model.run]. change (whitespace ")") with false. change (Ascii.eqb ")" chr_open) with false. change (Ascii.eqb ")" chr_close) with true. cbv iota.
      replace (Ascii.eqb a chr_blank) with false by (symmetry; apply not_true_is_false; intros X; apply Ascii.eqb_eq in X; exact (NA X)). reflexivity.
    - inversion PK as [|? ? PK1 PK2]; subst. cbn [map List.concat List.app] in *. cbn [Compose_model.run]. change (whitespace " ") with true. cbv iota. rewrite <- (app_assoc (text k)).
      assert (IR : In (root k) rhs) by (apply IC; left; reflexivity).
      assert (LF : match k with Leaf w => In w (terminals G) | Node _ _ => True end) by (destruct k as [w|]; [exact (plain_terminal n rhs w I IR)|exact Logic.I]).
      destruct (RK PK1 LF last (kids ks ++ ")"%char :: y) q) as (b & NB & ->).
      + destruct ks as [|k2 ks]; [exists y; right; reflexivity|]. cbn [map List.concat List.app]. eexists. left. reflexivity.
      + cbn [each]. destruct (exec k q) as [q2|e]; [|reflexivity]. cbn [bind]. apply (IH last y q2 b rhs NB I); [|exact PK2]. intros x X. apply IC. right. exact X.
  Qed.
  Lemma run_production n cs : Forall runs cs -> parse G (Node n cs) -> forall last y prev q, (prev = None \/ prev = Some " "%char) ->
    run last (text (Node n cs) ++ y) prev 0 q = bind (exec (Node n cs) q) (run last y (Some ")"%char) 0).
  Proof.
    intros R (I & P) last y prev q PV. assert (IN : In n (map fst G)) by (apply (in_map fst) in I; exact I).
    assert (SO : solid n) by apply (PL n _ I).
    assert (E : ends ((kids cs ++ [")"%char]) ++ y)) by (destruct cs; cbn [map List.concat List.app]; eexists; [right|left]; reflexivity).
    transitivity (run last (n ++ (kids cs ++ [")"%char]) ++ y) (Some "("%char) 0 q).
    - cbn [text List.app]. rewrite <- (app_assoc n). destruct n as [|b n]; [destruct SO; congruence|]. destruct (solid_char _ b SO (or_introl eq_refl)) as (_ & _ & _ & NB). cbn [List.app].
      set (rest := n ++ _). cbn [Compose_model.run]. change (whitespace "(") with false. change (Ascii.eqb "(" chr_open) with true. cbv iota. destruct PV as [-> | ->]; [reflexivity|].
      change (Ascii.eqb " " chr_blank) with true. cbv iota. replace (Ascii.eqb b chr_blank) with false by (symmetry; apply not_true_is_false; intros X; apply Ascii.eqb_eq in X; exact (NB X)). reflexivity.
    - destruct (name_step last n _ (Some "("%char) q IN E) as (a & NA & ->). rewrite <- app_assoc. cbn [List.app]. rewrite exec_node.
      apply (run_children n cs R last y (enter n q) a (map root cs) NA I); [apply incl_refl|]. apply all_Forall, P.
  Qed.
  Lemma run_any t : runs t.
  Proof.
    induction t as [w|n cs IH] using tree_ind'; intros P L last y q Y.
    - exact (leaf_step last w y q L Y).
    - exists ")"%char. split; [discriminate|]. apply (run_production n cs IH P). right. reflexivity.
  Qed.
  Lemma run_root n t : derived G n t -> forall last q, run last (text t) None 0 q = exec t q.
  Proof.
    intros (R & P) last q. destruct t as [w|m cs]; [discriminate|]. rewrite <- (app_nil_r (text _)).
    rewrite (run_production m cs (proj2 (Forall_forall _ _) (fun t _ => run_any t)) P last [] None q (or_introl eq_refl)). destruct (exec (Node m cs) q); reflexivity.
  Qed.

  (** ** Stacks *)
  Lemma close_inner q n ns : q_nts q = n :: ns -> length (q_nts q) <> length (q_tops q) -> close_production q = Ok (mkStacks ns (q_tops q) (q_prims q) (composed q)).
  Proof. intros E N. unfold close_production. destruct (Nat.eqb_spec (length (q_nts q)) (length (q_tops q))); [contradiction|]. cbn [bind]. rewrite E. reflexivity. Qed.
  Definition bump (tops : list (str * nat)) : list (str * nat) := match tops with [] => [] | (t, k) :: ts => (t, S k) :: ts end.
  Definition made (f : fn) (tops : list (str * nat)) (prims : list fn) : list fn := match tops with [] => prims | _ => f :: prims end.
  Lemma close_outer n ns t tops args prims c : length ns = length tops ->
    exists c', (tops = [] -> c' = Some (Comp t args)) /\
      close_production (mkStacks (n :: ns) ((t, length args) :: tops) (rev args ++ prims) c) = Ok (mkStacks ns (bump tops) (made (Comp t args) tops prims) c').
  Proof.
    intros L. exists (Some (Comp t args)). split; [reflexivity|]. unfold close_production. cbn [q_nts q_tops q_prims composed length]. rewrite L, Nat.eqb_refl.
    rewrite app_length, rev_length. destruct (Nat.ltb_spec (length args + length prims) (length args)) as [X|_]; [lia|].
    rewrite firstn_app, firstn_all2, rev_length, Nat.sub_diag by (rewrite rev_length; lia). cbn [firstn]. rewrite app_nil_r, rev_involutive.
    rewrite skipn_app, skipn_all2, rev_length, Nat.sub_diag by (rewrite rev_length; lia). cbn [skipn List.app].
    destruct tops as [|(t0, k0) ts]; reflexivity.
  Qed.
  Lemma exec_primitive c w : primitive topology c w -> forall nts t k tops prims m, (length tops < length nts)%nat ->
    exec c (mkStacks nts ((t, k) :: tops) prims m) = Ok (mkStacks nts ((t, S k) :: tops) (Prim w :: prims) m).
  Proof.
    induction 1 as [w T|n c w P IH]; intros nts t k tops prims m L.
    - cbn [exec]. unfold leaf. rewrite T. reflexivity.
    - rewrite exec_node. cbn [each]. unfold enter. cbn [q_nts q_tops q_prims composed]. rewrite IH by (cbn; lia). cbn [bind].
      rewrite (close_inner _ n nts); [reflexivity|reflexivity|cbn; lia].
  Qed.
  Lemma exec_primitives cs ws : Forall2 (primitive topology) cs ws -> forall nts t k tops prims m, (length tops < length nts)%nat ->
    each exec cs (mkStacks nts ((t, k) :: tops) prims m) = Ok (mkStacks nts ((t, k + length ws) :: tops) (rev (map Prim ws) ++ prims) m).
  Proof.
    induction 1 as [|c w cs ws P _ IH]; intros nts t k tops prims m L.
    - cbn [each length map rev List.app]. rewrite Nat.add_0_r. reflexivity.
    - cbn [each]. rewrite (exec_primitive c w P) by exact L. cbn [bind]. rewrite IH by exact L. cbn [length map rev]. rewrite <- app_assoc, Nat.add_succ_comm. reflexivity.
  Qed.
  (** below at least one more nonterminal, nothing is composed yet *)
  Lemma exec_pending c f : flat topology c f -> exists t ws, f = Comp t (map Prim ws) /\ forall nts tops prims m, (length tops < length nts)%nat ->
    exec c (mkStacks nts tops prims m) = Ok (mkStacks nts ((t, length ws) :: tops) (rev (map Prim ws) ++ prims) m).
  Proof.
    induction 1 as [n t cs ws T F|n c f _ (t & ws & E & IH)].
    - exists t, ws. split; [reflexivity|]. intros nts tops prims m L. rewrite exec_node. cbn [each exec]. unfold leaf. rewrite T. cbn [bind]. unfold enter. cbn [q_nts q_tops q_prims composed].
      rewrite (exec_primitives cs ws F) by (cbn; lia). cbn [bind]. rewrite (close_inner _ n nts); [reflexivity|reflexivity|cbn; lia].
    - exists t, ws. split; [exact E|]. intros nts tops prims m L. rewrite exec_node. cbn [each]. unfold enter. cbn [q_nts q_tops q_prims composed]. rewrite IH by (cbn; lia). cbn [bind].
      rewrite (close_inner _ n nts); [reflexivity|reflexivity|cbn; lia].
  Qed.
  Definition composes (c : tree) (f : fn) : Prop := forall nts tops prims m, length nts = length tops -> (tops = [] -> exists t args, f = Comp t args) ->
    exists m', (tops = [] -> m' = Some f) /\ exec c (mkStacks nts tops prims m) = Ok (mkStacks nts (bump tops) (made f tops prims) m').
  Lemma composes_flat c f : flat topology c f -> composes c f.
  Proof.
    intros F nts tops prims m L _. destruct F as [n t cs ws T F|n c f F].
    - rewrite exec_node. cbn [each exec]. unfold leaf. rewrite T. cbn [bind]. unfold enter. cbn [q_nts q_tops q_prims composed].
      rewrite (exec_primitives cs ws F) by (cbn; lia). cbn [bind Nat.add]. rewrite <- (map_length Prim ws). apply close_outer, L.
    - destruct (exec_pending c f F) as (t & ws & -> & X). rewrite exec_node. cbn [each]. unfold enter. cbn [q_nts q_tops q_prims composed]. rewrite X by (cbn; lia). cbn [bind].
      rewrite <- (map_length Prim ws). apply close_outer, L.
  Qed.
  Lemma composes_all cs fs : Forall2 composes cs fs -> forall nts t k tops prims m, length nts = S (length tops) ->
    exists m', each exec cs (mkStacks nts ((t, k) :: tops) prims m) = Ok (mkStacks nts ((t, k + length fs) :: tops) (rev fs ++ prims) m').
  Proof.
    induction 1 as [|c f cs fs P _ IH]; intros nts t k tops prims m L.
    - exists m. cbn [each length rev List.app]. rewrite Nat.add_0_r. reflexivity.
    - cbn [each]. destruct (P nts ((t, k) :: tops) prims m L) as (m1 & _ & ->); [discriminate|]. cbn [bind bump made]. destruct (IH nts t (S k) tops (f :: prims) m1 L) as (m2 & ->). exists m2.
      cbn [length rev]. rewrite <- app_assoc, Nat.add_succ_comm. reflexivity.
  Qed.
  Lemma composes_direct : forall c f, direct topology c f -> composes c f.
  Proof.
    fix IH 3. intros c f D. destruct D as [c w P|c f F|n t cs fs T F].
    - intros nts tops prims m L N. exists m. destruct tops as [|(t, k) tops]; [destruct (N eq_refl) as (t & args & X); discriminate|]. split; [discriminate|].
      apply (exec_primitive c w P). cbn [length] in L. lia.
    - exact (composes_flat c f F).
    - assert (FC : Forall2 composes cs fs) by (clear T; induction F as [|c f cs fs D _ IHF]; constructor; [exact (IH c f D)|exact IHF]).
      intros nts tops prims m L _. rewrite exec_node. cbn [each exec]. unfold leaf. rewrite T. cbn [bind]. unfold enter. cbn [q_nts q_tops q_prims composed].
      destruct (composes_all cs fs FC (n :: nts) t 0 tops prims m) as (m' & ->); [cbn; lia|]. cbn [bind Nat.add]. apply close_outer, L.
  Qed.

  Lemma composed_p s t f : derived G s t -> direct topology t f -> nonempty f -> compose_functions G topology (text t) = Ok f.
  Proof.
    intros D DI NE. unfold compose_functions. assert (SY : symbols G <> []).
    { destruct D as (R & P). destruct t as [w|n cs]; [discriminate|]. destruct P as (I & _). intros E. assert (X : In n (symbols G)) by (apply in_or_app; left; apply nonterminals_In; apply (in_map fst) in I; exact I). rewrite E in X. exact X. }
    destruct (symbols G) as [|s0 l0]; [congruence|]. rewrite (run_root s t D).
    destruct f as [w|t0 args]; [destruct NE|]. destruct (composes_direct t _ DI [] [] [] None eq_refl) as (m & M & ->); [intros _; exists t0, args; reflexivity|].
    cbn [bind bump made q_tops composed]. rewrite (M eq_refl). destruct args; [destruct NE|reflexivity].
  Qed.
  Lemma composed_empty s t w : derived G s t -> direct topology t (Comp w []) -> compose_functions G topology (text t) = Err ValueError.
  Proof.
    intros D DI. unfold compose_functions. assert (SY : symbols G <> []).
    { destruct D as (R & P). destruct t as [w'|n cs]; [discriminate|]. destruct P as (I & _). intros E. assert (X : In n (symbols G)) by (apply in_or_app; left; apply nonterminals_In; apply (in_map fst) in I; exact I). rewrite E in X. exact X. }
    destruct (symbols G) as [|s0 l0]; [congruence|]. rewrite (run_root s t D).
    destruct (composes_direct t _ DI [] [] [] None eq_refl) as (m & M & ->); [intros _; exists w, []; reflexivity|].
    cbn [bind bump made q_tops composed]. rewrite (M eq_refl). reflexivity.
  Qed.
  (** a primitive alone *)
  Lemma alone_p s t w : derived G s t -> primitive topology t w -> compose_functions G topology (text t) = Err IndexError.
  Proof.
    intros D P. unfold compose_functions. assert (SY : symbols G <> []).
    { destruct D as (R & Q). destruct t as [w'|n cs]; [discriminate|]. destruct Q as (I & _). intros E. assert (X : In n (symbols G)) by (apply in_or_app; left; apply nonterminals_In; apply (in_map fst) in I; exact I). rewrite E in X. exact X. }
    destruct (symbols G) as [|s0 l0]; [congruence|]. rewrite (run_root s t D).
    assert (X : forall nts m, exec t (mkStacks nts [] [] m) = Err IndexError); [|rewrite X; reflexivity].
    clear D SY. induction P as [w T|n c w P IH]; intros nts m; [cbn [exec]; unfold leaf; rewrite T; reflexivity|]. rewrite exec_node. cbn [each]. unfold enter. cbn [q_nts q_tops q_prims composed]. rewrite IH. reflexivity.
  Qed.
End Machine.

Lemma primitive_means topology c w : primitive topology c w -> means topology c (Prim w).
Proof. induction 1; constructor; assumption. Qed.
Lemma flat_means topology c f : flat topology c f -> means topology c f.
Proof.
  induction 1 as [n t cs ws T F|n c f _ IH]; [|constructor; exact IH]. constructor; [exact T|]. induction F as [|c w cs ws P _ IH]; cbn [map]; constructor; [apply primitive_means; exact P|exact IH].
Qed.
Lemma direct_means topology : forall c f, direct topology c f -> means topology c f.
Proof.
  fix IH 3. intros c f D. destruct D as [c w P|c f F|n t cs fs T F]; [apply primitive_means; exact P|apply flat_means; exact F|].
  constructor; [exact T|]. clear T. induction F as [|c f cs fs D _ IHF]; constructor; [exact (IH c f D)|exact IHF].
Qed.
