(** Texts of trees: splitting, brackets, places. *)
From Verif Require Import Py Cfg_model Cfg_spec.
Open Scope list_scope.
Local Notation length := List.length.

Lemma str_eqb_eq a b : str_eqb a b = true <-> a = b.
Proof. unfold str_eqb. destruct (list_eq_dec ascii_dec a b); split; congruence. Qed.
Lemma str_eqb_refl a : str_eqb a a = true. Proof. apply str_eqb_eq. reflexivity. Qed.
Lemma str_eqb_neq a b : str_eqb a b = false <-> a <> b.
Proof. unfold str_eqb. destruct (list_eq_dec ascii_dec a b); split; congruence. Qed.
Lemma mem_In s l : mem s l = true <-> In s l.
Proof. unfold mem. rewrite existsb_exists. split; [intros (x & I & E); apply str_eqb_eq in E; congruence|intros I; exists s; split; [exact I|apply str_eqb_refl]]. Qed.
Lemma nonterminals_In G n : In n (nonterminals G) <-> In n (map fst G). Proof. apply nodup_In. Qed.
Lemma all_Forall {A} (P : A -> Prop) l : all P l <-> Forall P l.
Proof.
  unfold all. induction l as [|a l IH]; cbn; [split; constructor|]. split; [intros (H & R); constructor; [exact H|apply IH, R]|intros H; inversion H; subst; split; [assumption|apply IH; assumption]].
Qed.
Fixpoint tree_ind' (P : tree -> Prop) (HL : forall w, P (Leaf w)) (HN : forall n cs, Forall P cs -> P (Node n cs)) (t : tree) : P t :=
  match t with
  | Leaf w => HL w
  | Node n cs => HN n cs ((fix go (l : list tree) : Forall P l := match l with [] => Forall_nil _ | c :: l' => Forall_cons _ (tree_ind' P HL HN c) (go l') end) cs)
  end.
Notation kids := (fun cs => List.concat (map (fun c => " "%char :: text c) cs)).
Lemma kids_app l m : kids (l ++ m) = kids l ++ kids m. Proof. cbn beta. rewrite map_app, concat_app. reflexivity. Qed.

(** ** Splitting *)
Lemma split_cons l : exists w ws, split l = w :: ws.
Proof. induction l as [|a l (w & ws & IH)]; cbn [split]; [eauto|]. destruct (Ascii.eqb a chr_blank); [eauto|]. rewrite IH. eauto. Qed.
Lemma split_app x y : split (x ++ " "%char :: y) = split x ++ split y.
Proof.
  induction x as [|a x IH]; [reflexivity|]. cbn [List.app split]. destruct (Ascii.eqb a chr_blank) eqn:E; [rewrite IH; reflexivity|].
  rewrite IH. destruct (split_cons x) as (w & ws & ->). reflexivity.
Qed.
Lemma split_word w : ~ In " "%char w -> split w = [w].
Proof.
  induction w as [|a w IH]; intros N; [reflexivity|]. cbn [split]. destruct (Ascii.eqb_spec a chr_blank) as [->|NE]; [exfalso; apply N; left; reflexivity|].
  rewrite IH by (intros I; apply N; right; exact I). reflexivity.
Qed.
Lemma split_hd w y : ~ In " "%char w -> split (w ++ y) = (w ++ hd [] (split y)) :: tl (split y).
Proof.
  induction w as [|a w IH]; intros N; cbn [List.app]; [destruct (split_cons y) as (u & us & ->); reflexivity|]. cbn [split].
  destruct (Ascii.eqb_spec a chr_blank) as [->|NE]; [exfalso; apply N; left; reflexivity|].
  rewrite IH by (intros I; apply N; right; exact I). reflexivity.
Qed.
Lemma join_cons w ws : ws <> [] -> join (w :: ws) = w ++ chr_blank :: join ws. Proof. destruct ws; [congruence|reflexivity]. Qed.
Lemma join_split l : join (split l) = l.
Proof.
  induction l as [|a l IH]; [reflexivity|]. cbn [split]. destruct (split_cons l) as (w & ws & E). destruct (Ascii.eqb_spec a chr_blank) as [->|NE].
  - rewrite join_cons by (rewrite E; discriminate). rewrite IH. reflexivity.
  - rewrite E in *. destruct ws as [|u us]; cbn [join List.app] in *; rewrite <- IH; reflexivity.
Qed.
Lemma split_length l : length (split l) = S (blanks l).
Proof.
  unfold blanks. induction l as [|a l IH]; [reflexivity|]. cbn [split count_occ]. destruct (ascii_dec a " ") as [->|NE].
  - cbn [Ascii.eqb Bool.eqb chr_blank length]. rewrite IH. reflexivity.
  - destruct (Ascii.eqb_spec a chr_blank) as [->|_]; [exfalso; apply NE; reflexivity|]. destruct (split_cons l) as (w & ws & E). rewrite E in *. cbn [length] in *. congruence.
Qed.
Lemma blanks_app x y : blanks (x ++ y) = blanks x + blanks y. Proof. apply count_occ_app. Qed.
Lemma blanks_none w : ~ In " "%char w -> blanks w = 0. Proof. apply count_occ_not_In. Qed.
Lemma blanks_cons a l : blanks (a :: l) = (if ascii_dec a " " then 1 else 0) + blanks l. Proof. unfold blanks. cbn. destruct (ascii_dec a " "); reflexivity. Qed.

(** ** Any text *)
Lemma removed_parts t i a b c : remove_subtree t i = Ok (a, b, c) -> 0 < i -> S i < length (split t) -> a ++ b ++ c = t.
Proof.
  unfold remove_subtree. destruct (nth_error (split t) i) as [w|] eqn:W; [|discriminate]. intros E P L.
  apply (f_equal (fun r => match r with Ok (x, y, z) => x ++ y ++ z | Err _ => [] end)) in E. cbv beta iota zeta in E. rewrite <- E. clear E.
  set (ws := split t) in *. assert (JS : join ws = t) by apply join_split. clearbody ws. set (right := join (skipn (S i) ws)).
  replace ((join (firstn i ws) ++ [chr_blank]) ++ (w ++ chr_blank :: firstn (S (close 1 right)) right) ++ skipn (S (close 1 right)) right)
    with (join (firstn i ws) ++ chr_blank :: w ++ chr_blank :: right)
    by (rewrite <- !app_assoc; cbn [List.app]; rewrite firstn_skipn; reflexivity).
  unfold right. clear right.
  assert (J : forall l m, l <> [] -> m <> [] -> join (l ++ m) = join l ++ chr_blank :: join m).
  { induction l as [|x l IH]; intros m NL NM; [congruence|]. destruct l as [|y l]; [cbn [List.app]; apply join_cons, NM|].
    change ((x :: y :: l) ++ m) with (x :: ((y :: l) ++ m)). rewrite (join_cons x ((y :: l) ++ m)) by discriminate. rewrite IH by (discriminate || exact NM).
    rewrite (join_cons x (y :: l)) by discriminate. rewrite <- app_assoc. reflexivity. }
  assert (S1 : skipn (S i) ws <> []) by (intros E; apply (f_equal (@length str)) in E; rewrite skipn_length in E; cbn in E; lia).
  assert (F1 : firstn i ws <> []) by (intros E; apply (f_equal (@length str)) in E; rewrite firstn_length in E; cbn in E; lia).
  assert (SK : skipn i ws = w :: skipn (S i) ws).
  { clear - W. revert i W. induction ws as [|x l IH]; intros i W; [destruct i; discriminate|]. destruct i; [injection W as ->; reflexivity|]. apply (IH i W). }
  transitivity (join (firstn i ws ++ w :: skipn (S i) ws)).
  - rewrite (J (firstn i ws) (w :: skipn (S i) ws) F1 ltac:(discriminate)), (join_cons w _ S1). reflexivity.
  - rewrite <- SK, firstn_skipn. exact JS.
Qed.
(** at the root there is a blank too many *)
Lemma removed_root t a b c : remove_subtree t 0 = Ok (a, b, c) -> 1 < length (split t) -> a = [" "%char] /\ b ++ c = t.
Proof.
  unfold remove_subtree. destruct (split t) as [|w ws] eqn:W; [discriminate|]. intros E L. split; [apply (f_equal (fun r => match r with Ok (x, y, z) => x | Err _ => [] end)) in E; symmetry; exact E|].
  apply (f_equal (fun r => match r with Ok (x, y, z) => y ++ z | Err _ => [] end)) in E. cbv beta iota zeta in E. cbn [nth_error] in E. rewrite <- E.
  change (skipn 1 (w :: ws)) with ws. rewrite <- app_assoc, <- app_comm_cons, firstn_skipn. change (w ++ chr_blank :: join ws = t).
  rewrite <- join_cons by (destruct ws; [cbn in L; lia|discriminate]). rewrite <- W. apply join_split.
Qed.

(** ** Brackets *)
Lemma depth_app x y : depth (x ++ y) = (depth x + depth y)%Z. Proof. induction x as [|a x IH]; [reflexivity|]. cbn [List.app depth]. rewrite IH. lia. Qed.
Lemma app_split {A} (p q x y : list A) : p ++ q = x ++ y -> (exists z, p = x ++ z /\ y = z ++ q) \/ (exists z, x = p ++ z /\ q = z ++ y).
Proof.
  revert x. induction p as [|a p IH]; intros x E; [right; exists x; split; [reflexivity|exact E]|]. destruct x as [|b x]; [left; exists (a :: p); split; [reflexivity|symmetry; exact E]|].
  injection E as <- E. destruct (IH x E) as [(z & -> & ->)|(z & -> & ->)]; [left; exists z; auto|right; exists z; auto].
Qed.
Lemma balanced_app x y : balanced x -> balanced y -> balanced (x ++ y).
Proof.
  intros (X0 & X) (Y0 & Y). split; [rewrite depth_app; lia|]. intros p q E. symmetry in E. destruct (app_split p q x y E) as [(z & -> & ->)|(z & -> & ->)].
  - rewrite depth_app, X0. specialize (Y z q eq_refl). lia.
  - apply (X p z eq_refl).
Qed.
Lemma balanced_solid w : ~ In "("%char w -> ~ In ")"%char w -> balanced w.
Proof.
  assert (Z : forall w, ~ In "("%char w -> ~ In ")"%char w -> depth w = 0%Z).
  { induction w0 as [|a w0 IH]; intros O C; [reflexivity|]. cbn [depth]. destruct (Ascii.eqb_spec a "(") as [->|_]; [exfalso; apply O; left; reflexivity|].
    destruct (Ascii.eqb_spec a ")") as [->|_]; [exfalso; apply C; left; reflexivity|]. rewrite IH; [reflexivity| |]; intros I; [apply O|apply C]; right; exact I. }
  intros O C. split; [apply Z; assumption|]. intros p q ->. rewrite Z; [lia| |]; intros I; [apply O|apply C]; apply in_or_app; left; exact I.
Qed.
Lemma balanced_wrap x : balanced x -> balanced ("("%char :: x ++ [")"%char]).
Proof.
  intros (X0 & X). split; [cbn [depth Ascii.eqb Bool.eqb]; rewrite depth_app, X0; reflexivity|]. intros p q E. destruct p as [|a p]; [cbn; lia|]. injection E as <- E. cbn [depth Ascii.eqb Bool.eqb].
  symmetry in E. destruct (app_split p q x _ E) as [(z & -> & Z)|(z & -> & ->)].
  - rewrite depth_app, X0. destruct z as [|b z]; [cbn; lia|]. injection Z as <- Z. symmetry in Z. apply app_eq_nil in Z. destruct Z as (-> & _). cbn. lia.
  - specialize (X p z eq_refl). lia.
Qed.
Lemma close_app c l r : (1 <= c)%Z -> (forall p q, l = p ++ q -> (1 - c <= depth p)%Z) -> close c (l ++ r) = length l + close (c + depth l) r.
Proof.
  revert c. induction l as [|a l IH]; intros c C P; [cbn [List.app length depth]; rewrite Z.add_0_r; reflexivity|].
  cbn [List.app close length]. assert (A := P [a] l eq_refl). cbn [depth] in A.
  set (c' := (if Ascii.eqb a chr_open then c + 1 else if Ascii.eqb a chr_close then c - 1 else c)%Z).
  assert (CE : (c' = c + (if Ascii.eqb a "(" then 1 else if Ascii.eqb a ")" then -1 else 0))%Z).
  { unfold c'. change chr_open with "("%char. change chr_close with ")"%char. destruct (Ascii.eqb a "("); [reflexivity|]. destruct (Ascii.eqb a ")"); lia. }
  destruct (Z.eqb_spec c' 0) as [E|NE]; [lia|]. rewrite IH; [|lia|].
  - cbn [depth]. rewrite CE. rewrite <- !Z.add_assoc. reflexivity.
  - intros p q ->. specialize (P (a :: p) q eq_refl). cbn [depth] in P. lia.
Qed.
Lemma close_balanced l r : balanced l -> close 1 (l ++ ")"%char :: r) = length l.
Proof.
  intros (D & P). rewrite close_app; [|lia|intros p q E; specialize (P p q E); lia]. rewrite D. cbn. lia.
Qed.

(** ** Trees with proper symbols *)
Definition tree_ok (G : grammar) (t : tree) : Prop := grammar_ok G /\ parse G t /\ match t with Leaf w => word_ok G w | Node _ _ => True end.
Lemma tree_kids G n cs : grammar_ok G -> parse G (Node n cs) -> name_ok n /\ cs <> [] /\ Forall (tree_ok G) cs.
Proof.
  intros O (I & A). destruct (O n _ I) as (N & NE & F). split; [exact N|]. split; [intros ->; apply NE; reflexivity|]. apply all_Forall in A.
  rewrite Forall_forall in *. intros c C. split; [exact O|]. split; [apply A, C|]. specialize (F (root c) (in_map root _ _ C)). destruct c; [exact F|exact Logic.I].
Qed.
Lemma text_balanced G t : tree_ok G t -> balanced (text t).
Proof.
  intros (O & P & W). revert P W. induction t as [w|n cs IH] using tree_ind'; intros P W; [apply W|]. destruct (tree_kids G n cs O P) as ((_ & _ & NO & NC) & _ & F).
  cbn [text]. rewrite app_assoc. apply balanced_wrap. apply balanced_app; [apply balanced_solid; assumption|].
  clear P W. induction cs as [|c cs IHcs]; [split; [reflexivity|intros p q E; symmetry in E; apply app_eq_nil in E; destruct E as (-> & _); cbn; lia]|].
  inversion IH; subst. inversion F as [|? ? (_ & PC & WC) FC]; subst. cbn [map List.concat]. apply balanced_app; [|apply IHcs; assumption].
  change (" "%char :: text c) with ([" "%char] ++ text c). apply balanced_app; [apply balanced_solid; intros [X|[]]; discriminate X|auto].
Qed.
Lemma kids_balanced G cs : Forall (tree_ok G) cs -> balanced (kids cs).
Proof.
  induction 1 as [|c cs C _ IH]; [split; [reflexivity|intros p q E; symmetry in E; apply app_eq_nil in E; destruct E as (-> & _); cbn; lia]|].
  cbn [map List.concat]. apply balanced_app; [|exact IH]. change (" "%char :: text c) with ([" "%char] ++ text c). apply balanced_app; [apply balanced_solid; intros [X|[]]; discriminate X|eapply text_balanced, C].
Qed.
Lemma text_plug c t : text (plug c t) = before c ++ text t ++ after c.
Proof.
  induction c as [|((n, l), r) c IH]; cbn [plug before after]; [cbn; rewrite app_nil_r; reflexivity|]. cbn [text]. rewrite map_app, concat_app. cbn [map List.concat]. rewrite IH. cbn [List.app].
  rewrite <- !app_assoc. cbn [List.app]. rewrite <- !app_assoc. reflexivity.
Qed.
Lemma parse_plug G c t : parse G (plug c t) -> parse G t.
Proof.
  induction c as [|((n, l), r) c IH]; [auto|]. cbn [plug parse]. intros (_ & A). apply IH. apply all_Forall in A. rewrite Forall_forall in A. apply A, in_or_app. right. left. reflexivity.
Qed.
Lemma root_plug c t u : root t = root u -> root (plug c t) = root (plug c u). Proof. destruct c as [|((n, l), r) c]; [auto|reflexivity]. Qed.
Lemma parse_replace G c t u : parse G (plug c t) -> parse G u -> root u = root t -> parse G (plug c u).
Proof.
  induction c as [|((n, l), r) c IH]; [auto|]. cbn [plug parse]. intros (I & A) U R. split.
  - rewrite map_app in *. cbn [map] in *. rewrite (root_plug c u t R). exact I.
  - apply all_Forall in A. apply all_Forall. apply Forall_app in A. destruct A as (A1 & A2). inversion A2; subst. apply Forall_app. split; [exact A1|constructor; auto].
Qed.
Lemma before_split c : c <> [] -> exists x, before c = x ++ [" "%char].
Proof.
  induction c as [|((n, l), r) c IH]; [congruence|]. intros _. cbn [before]. destruct c as [|f c].
  - cbn [before]. exists ("("%char :: n ++ kids l). cbn [List.app]. rewrite <- app_assoc. reflexivity.
  - destruct (IH ltac:(discriminate)) as (x & ->). exists ("("%char :: n ++ kids l ++ " "%char :: x). cbn [List.app]. rewrite <- !app_assoc. reflexivity.
Qed.
(** the three parts *)
Lemma remove_at t l w body m : split t = l ++ w :: split (body ++ ")"%char :: m) -> balanced body ->
  remove_subtree t (length l) = Ok (join l ++ [" "%char], w ++ " "%char :: body ++ [")"%char], m).
Proof.
  intros E B. unfold remove_subtree. rewrite E. cbv zeta. rewrite nth_error_app2 by lia. rewrite Nat.sub_diag. change (nth_error (w :: split (body ++ ")"%char :: m)) 0) with (Some w). cbv iota.
  rewrite firstn_app, Nat.sub_diag, firstn_all, firstn_O, app_nil_r.
  rewrite skipn_app, skipn_all2 by lia. replace (S (length l) - length l) with 1 by lia. change (skipn 1 (w :: split (body ++ ")"%char :: m))) with (split (body ++ ")"%char :: m)).
  change ([] ++ split (body ++ ")"%char :: m)) with (split (body ++ ")"%char :: m)). rewrite join_split, close_balanced by exact B.
  replace (firstn (S (length body)) (body ++ ")"%char :: m)) with (body ++ [")"%char]) by (replace (S (length body)) with (length body + 1) by lia; rewrite firstn_app_2; reflexivity).
  replace (skipn (S (length body)) (body ++ ")"%char :: m)) with m by (rewrite skipn_app, skipn_all2 by lia; replace (S (length body) - length body) with 1 by lia; reflexivity).
  reflexivity.
Qed.
Lemma node_words G n cs m : grammar_ok G -> parse G (Node n cs) ->
  exists body, balanced body /\ text (Node n cs) = ("("%char :: n) ++ " "%char :: body ++ [")"%char] /\ split (text (Node n cs) ++ m) = ("("%char :: n) :: split (body ++ ")"%char :: m).
Proof.
  intros O PN. destruct (tree_kids G n cs O PN) as ((_ & NB & _) & NE & F). destruct cs as [|k ks]; [congruence|]. exists (text k ++ kids ks).
  assert (T : text (Node n (k :: ks)) = ("("%char :: n) ++ " "%char :: (text k ++ kids ks) ++ [")"%char]).
  { cbn [text map List.concat List.app]. rewrite <- !app_assoc. reflexivity. }
  split; [|split; [exact T|]].
  - inversion F as [|? ? C CS]; subst. apply balanced_app; [eapply text_balanced, C|eapply kids_balanced, CS].
  - rewrite T. set (body := text k ++ kids ks). rewrite <- (app_assoc ("("%char :: n)). change ((" "%char :: body ++ [")"%char]) ++ m) with (" "%char :: ((body ++ [")"%char]) ++ m)).
    rewrite split_app, split_word; [|intros [X|X]; [discriminate X|contradiction]]. rewrite <- (app_assoc body [_] m). reflexivity.
Qed.
Lemma removed_place G c n cs : grammar_ok G -> parse G (plug c (Node n cs)) ->
  remove_subtree (text (plug c (Node n cs))) (blanks (before c)) = Ok (match c with [] => [" "%char] | _ => before c end, text (Node n cs), after c).
Proof.
  intros O P. pose proof (parse_plug _ _ _ P) as PN. destruct (node_words G n cs (after c) O PN) as (body & B & T & W). rewrite text_plug. destruct c as [|f c].
  - rewrite T. change (blanks (before [])) with (@length str []). apply remove_at; [|exact B]. rewrite T in W. exact W.
  - destruct (before_split (f :: c) ltac:(discriminate)) as (x & E). rewrite E.
    replace (blanks (x ++ [" "%char])) with (length (split x)) by (rewrite split_length, blanks_app; change (blanks [" "%char]) with 1; lia).
    pose proof (remove_at ((x ++ [" "%char]) ++ text (Node n cs) ++ after (f :: c)) (split x) ("("%char :: n) body (after (f :: c))) as R.
    rewrite join_split in R. rewrite T in *. apply R; [|exact B]. rewrite <- (app_assoc x). cbn [List.app] in W |- *. rewrite split_app, W. reflexivity.
Qed.
