(** Architectures as strings: taking them apart, sampling, mutation, crossover, probabilities. *)
From Verif Require Import Py Cfg_model Cfg_spec Cfg_text_proofs Cfg_sample_proofs Cfg_prior_proofs.
From Coq Require Import QArith.
Open Scope nat_scope.
Open Scope list_scope.
Local Notation length := List.length.

(** For the examples: S -> S ADD T | T, T -> 1 | 2, ADD -> +, and the tree of the documentation. *)
Definition st (x : string) : str := Eval lazy in list_ascii_of_string x.
Definition gr : grammar := Eval lazy in
  [(st "S", [Nt (st "S"); Nt (st "ADD"); Nt (st "T")]); (st "S", [Nt (st "T")]); (st "T", [Tm (st "1")]); (st "T", [Tm (st "2")]); (st "ADD", [Tm (st "+")])].
Definition leaf (n w : string) : tree := Node (st n) [Leaf (st w)].
Definition tr : tree := Eval lazy in Node (st "S") [Node (st "S") [leaf "T" "2"]; leaf "ADD" "+"; leaf "T" "1"].
Definition tr2 : tree := Eval lazy in Node (st "S") [Node (st "S") [leaf "T" "1"]; leaf "ADD" "+"; leaf "T" "1"].
Ltac by_cases I := repeat (destruct I as [I|I]; [injection I as <- <-|]); [..|destruct I].
Ltac no_in := let X := fresh in intros X; lazy in X; intuition discriminate.
Ltac ok_name := split; [discriminate|split; [no_in|split; no_in]].
Ltac ok_word := split; [no_in|split; [apply balanced_solid; no_in|intros ? ? [= <- <-]; no_in]].
Ltac ok_grammar := intros ? ? I; by_cases I; (split; [ok_name|split; [discriminate|repeat (constructor; [first [ok_word|ok_name]|]); constructor]]).
Ltac ok_tree := split; [reflexivity|repeat split; lazy; intuition congruence].
Lemma gr_ok : grammar_ok gr. Proof. ok_grammar. Qed.
Lemma tr_derived : derived gr (st "S") tr. Proof. ok_tree. Qed.
Lemma tr2_derived : derived gr (st "S") tr2. Proof. ok_tree. Qed.
(** the place of the ADD *)
Definition add_place : place := Eval lazy in [(st "S", [Node (st "S") [leaf "T" "2"]], [leaf "T" "1"])].
Lemma add_begins : begins tr 4 add_place (st "ADD") [Leaf (st "+")]. Proof. split; [reflexivity|split; [reflexivity|discriminate]]. Qed.
(** the place of the inner S *)
Definition s_place : place := Eval lazy in [(st "S", [], [leaf "ADD" "+"; leaf "T" "1"])].
Lemma s_begins : begins tr 1 s_place (st "S") [leaf "T" "2"]. Proof. split; [reflexivity|split; [reflexivity|discriminate]]. Qed.

(** ** Removing a subtree (C59) *)
(** Any text, any position other than that of the first and the last word: the parts make up the text. *)
Theorem parts_make_up_the_text : forall tree i, 0 < i < blanks tree -> exists a b c, remove_subtree tree i = Ok (a, b, c) /\ a ++ b ++ c = tree.
Proof. exact remove_any. Qed.
Example parts_make_up_the_text_ex : 0 < 4 < blanks (st "(S (S (T 2)) (ADD +) (T 1))") /\
  remove_subtree (st "(S (S (T 2)) (ADD +) (T 1))") 4 = Ok (st "(S (S (T 2)) ", st "(ADD +)", st " (T 1))").
Proof. split; [split; lazy; lia|lazy; reflexivity]. Qed.
Print Assumptions parts_make_up_the_text.

(** At the root they do not: there is a blank too many. *)
Theorem parts_at_root_refuted : exists tree a b c, derived gr (st "S") tree /\ begins tree 0 [] (st "S") [leaf "T" "2"] /\
  remove_subtree (text tree) 0 = Ok (a, b, c) /\ a ++ b ++ c <> text tree /\ a = st " " /\ b ++ c = text tree.
Proof.
  exists (Node (st "S") [leaf "T" "2"]), (st " "), (st "(S (T 2))"), []. split; [ok_tree|]. split; [split; [reflexivity|split; [reflexivity|discriminate]]|]. split; [lazy; reflexivity|]. split; [lazy; discriminate|split; reflexivity].
Qed.
Print Assumptions parts_at_root_refuted.

(** Where a subtree begins, the parts are the text before it, its own text, and the text after it (and a
    blank instead of nothing before the root). *)
Theorem subtree_is_removed : forall G s t i c n cs, grammar_ok G -> derived G s t -> begins t i c n cs ->
  remove_subtree (text t) i = Ok (match c with [] => [" "%char] | _ => before c end, text (Node n cs), after c).
Proof. intros G s t i c n cs O (_ & P) (-> & -> & _). exact (removed_place G c n cs O P). Qed.
Example subtree_is_removed_ex : grammar_ok gr /\ derived gr (st "S") tr /\ begins tr 4 add_place (st "ADD") [Leaf (st "+")] /\
  before add_place = st "(S (S (T 2)) " /\ text (leaf "ADD" "+") = st "(ADD +)" /\ after add_place = st " (T 1))".
Proof. split; [exact gr_ok|]. split; [exact tr_derived|]. split; [exact add_begins|]. repeat split. Qed.
Print Assumptions subtree_is_removed.

(** Replaced by anything with balanced brackets, the whole stays balanced. *)
Theorem replaced_is_balanced : forall G s t i c n cs new, grammar_ok G -> derived G s t -> begins t i c n cs -> balanced new ->
  exists a b d, remove_subtree (text t) i = Ok (a, b, d) /\ balanced b /\ balanced (a ++ new ++ d).
Proof. exact remove_balanced. Qed.
Example replaced_is_balanced_ex : grammar_ok gr /\ derived gr (st "S") tr /\ begins tr 4 add_place (st "ADD") [Leaf (st "+")] /\ balanced (st "(ADD (MUL *))").
Proof.
  split; [exact gr_ok|]. split; [exact tr_derived|]. split; [exact add_begins|].
  change (balanced ("("%char :: (st "ADD " ++ ("("%char :: st "MUL *" ++ [")"%char])) ++ [")"%char])). apply balanced_wrap, balanced_app; [apply balanced_solid; no_in|]. apply balanced_wrap, balanced_solid; no_in.
Qed.
Print Assumptions replaced_is_balanced.

Lemma one_leaf ks w : map root ks = [Tm w] -> ks = [Leaf w].
Proof. destruct ks as [|[x|x xs] [|? ?]]; try discriminate. intros [= ->]. reflexivity. Qed.
Lemma two_nodes ks a b : map root ks = [Nt a; Nt b] -> exists x y, ks = [Node a x; Node b y].
Proof. destruct ks as [|[x|x xs] [|[y|y ys] [|? ?]]]; try discriminate. intros [= -> ->]. exists xs, ys. reflexivity. Qed.
(** With a bracket as a terminal: the replaced string is not the string of any tree of the grammar. *)
Definition gr_bracket : grammar := Eval lazy in
  [(st "S", [Nt (st "T"); Nt (st "U")]); (st "T", [Tm (st ")")]); (st "T", [Tm (st "a")]); (st "U", [Tm (st "b")])].
Theorem bracket_terminal_refuted : exists t c cs r, derived gr_bracket (st "S") t /\ begins t 1 c (st "T") cs /\
  mutate gr_bracket 3 (text t) 1 (st "T") 50 [1] = Ok (r, []) /\ forall n u, derived gr_bracket n u -> r <> text u.
Proof.
  exists (Node (st "S") [leaf "T" ")"; leaf "U" "b"]), [(st "S", [], [leaf "U" "b"])], [Leaf (st ")")], (st "(S (T a)) (U b))").
  split; [ok_tree|]. split; [split; [reflexivity|split; [reflexivity|discriminate]]|]. split; [lazy; reflexivity|].
  assert (TW : forall ks, parse gr_bracket (Node (st "T") ks) -> text (Node (st "T") ks) = st "(T ))" \/ text (Node (st "T") ks) = st "(T a)").
  { intros ks (I & _). destruct I as [I|[I|[I|[I|[]]]]]; try discriminate; injection I as I; symmetry in I; apply one_leaf in I; subst ks; [left|right]; reflexivity. }
  assert (UW : forall ks, parse gr_bracket (Node (st "U") ks) -> text (Node (st "U") ks) = st "(U b)").
  { intros ks (I & _). destruct I as [I|[I|[I|[I|[]]]]]; try discriminate; injection I as I; symmetry in I; apply one_leaf in I; subst ks; reflexivity. }
  intros n u (R & P) E. destruct u as [w|m us]; [discriminate|]. assert (I := proj1 P). destruct I as [I|[I|[I|[I|[]]]]]; injection I as <- I; symmetry in I.
  - apply two_nodes in I. destruct I as (x & y & ->). destruct P as (_ & PX & PY & _). 
    change (st "(S (T a)) (U b))" = "("%char :: st "S" ++ ((" "%char :: text (Node (st "T") x)) ++ (" "%char :: text (Node (st "U") y)) ++ []) ++ [")"%char]) in E.
    rewrite (UW y PY) in E. destruct (TW x PX) as [EX|EX]; rewrite EX in E; lazy in E; discriminate E.
  - apply one_leaf in I. subst us. discriminate E.
  - apply one_leaf in I. subst us. discriminate E.
  - apply one_leaf in I. subst us. discriminate E.
Qed.
Print Assumptions bracket_terminal_refuted.

(** ** Mutation (C59) *)
(** A mutated string is the string of the tree with the subtree replaced by another tree of the same
    symbol, which is a tree of the grammar. *)
Theorem mutation_is_derived : forall G fuel s t i c n cs patience draws r d, grammar_ok G -> derived G s t -> begins t i c n cs ->
  mutate G fuel (text t) i n patience draws = Ok (r, d) -> exists u, derived G n u /\ twins u /\ r = text (plug c u) /\ derived G s (plug c u).
Proof. exact mutation_tree. Qed.
Example mutation_is_derived_ex : grammar_ok gr /\ derived gr (st "S") tr /\ begins tr 1 s_place (st "S") [leaf "T" "2"] /\
  mutate gr 9 (text tr) 1 (st "S") 50 [1; 1; 0; 1; 0; 0] = Ok (st "(S (S (S (T 1)) (ADD +) (T 1)) (ADD +) (T 1))", []).
Proof. split; [exact gr_ok|]. split; [exact tr_derived|]. split; [exact s_begins|lazy; reflexivity]. Qed.
Print Assumptions mutation_is_derived.

(** Elsewhere than at the root the parent comes back only if [patience] samples in a row were the old
    subtree. *)
Theorem mutation_differs : forall G fuel s t i c n cs patience draws d, grammar_ok G -> derived G s t -> begins t i c n cs -> c <> [] ->
  mutate G fuel (text t) i n patience draws = Ok (text t, d) -> sampler G fuel patience n draws = Ok (repeat (text (Node n cs)) patience, d).
Proof. intros G fuel s t i c n cs. exact (mutate_same G fuel t s i c n cs). Qed.
Example mutation_differs_ex : grammar_ok gr /\ derived gr (st "S") tr /\ begins tr 1 s_place (st "S") [leaf "T" "2"] /\ s_place <> [] /\
  mutate gr 9 (text tr) 1 (st "S") 2 [1; 1; 1; 1] = Ok (text tr, []) /\ mutate gr 9 (text tr) 1 (st "S") 2 [1; 1; 1; 0] = Ok (text tr2, []).
Proof. split; [exact gr_ok|]. split; [exact tr_derived|]. split; [exact s_begins|]. split; [discriminate|]. split; lazy; reflexivity. Qed.
Print Assumptions mutation_differs.

(** At the root the first sample is returned even if it is the parent and the second one is not. *)
Theorem mutation_at_root_refuted : exists t cs draws d y d', derived gr (st "S") t /\ begins t 0 [] (st "S") cs /\
  mutate gr 9 (text t) 0 (st "S") 50 draws = Ok (text t, d) /\ sampler gr 9 2 (st "S") draws = Ok ([text t; y], d') /\ y <> text t.
Proof.
  exists (Node (st "S") [leaf "T" "2"]), [leaf "T" "2"], [1; 1; 1; 0], [1; 0], (st "(S (T 1))"), []. split; [ok_tree|]. split; [split; [reflexivity|split; [reflexivity|discriminate]]|].
  split; [lazy; reflexivity|]. split; [lazy; reflexivity|lazy; discriminate].
Qed.
Print Assumptions mutation_at_root_refuted.

(** With no patience there is no child at all. *)
Theorem mutation_without_patience : forall G fuel s t i c n cs draws, grammar_ok G -> derived G s t -> begins t i c n cs ->
  mutate G fuel (text t) i n 0 draws = Err UnboundLocalError.
Proof. exact mutate_impatient. Qed.
Example mutation_without_patience_ex : grammar_ok gr /\ derived gr (st "S") tr /\ begins tr 4 add_place (st "ADD") [Leaf (st "+")].
Proof. split; [exact gr_ok|]. split; [exact tr_derived|exact add_begins]. Qed.
Print Assumptions mutation_without_patience.

(** ** Sampling (C101) *)
(** Every sampled string is the string of a tree of the grammar, in which subtrees of one node with the
    same symbol are the same. *)
Theorem sampled_is_derived : forall G fuel k n draws ss d, sampler G fuel k n draws = Ok (ss, d) ->
  length ss = k /\ Forall (fun s => exists t, s = text t /\ derived G n t /\ twins t) ss.
Proof. exact sampler_trees. Qed.
Example sampled_is_derived_ex : sampler gr 9 2 (st "S") [0; 1; 1; 0; 1; 0] = Ok ([st "(S (S (T 2)) (ADD +) (T 2))"; st "(S (T 1))"], []).
Proof. lazy. reflexivity. Qed.
Print Assumptions sampled_is_derived.

(** So not every tree of the grammar can be sampled. *)
Definition gr_pair : grammar := Eval lazy in [(st "S", [Nt (st "T"); Nt (st "T")]); (st "T", [Tm (st "a")]); (st "T", [Tm (st "b")])].
Theorem all_trees_sampled_refuted : exists t, grammar_ok gr_pair /\ derived gr_pair (st "S") t /\ forall fuel draws d, sample1 gr_pair fuel (st "S") draws <> Ok (text t, d).
Proof.
  exists (Node (st "S") [leaf "T" "a"; leaf "T" "b"]). split; [ok_grammar|]. split; [ok_tree|]. intros fuel draws d E.
  destruct fuel as [|[|fuel]]; [discriminate|destruct draws as [|[|[|k]] [|? ?]]; discriminate|]. destruct draws as [|[|[|k]] draws]; try discriminate.
  destruct draws as [|[|[|[|k]]] draws]; try discriminate.
Qed.
Print Assumptions all_trees_sampled_refuted.

(** The checks of the constructor never fail... *)
Theorem constructor_accepts_all : forall G, init G = Ok G.
Proof. exact init_ok. Qed.
Example constructor_accepts_all_ex : init gr = Ok gr. Proof. lazy. reflexivity. Qed.
Print Assumptions constructor_accepts_all.
(** ... although a symbol may be both terminal and nonterminal, ... *)
Theorem name_clash_noticed_refuted : exists G n m rhs, In n (map fst G) /\ In (m, rhs) G /\ In (Tm n) rhs /\ init G = Ok G.
Proof.
  exists [(st "S", [Tm (st "T"); Nt (st "T")]); (st "T", [Tm (st "a")])], (st "T"), (st "S"), [Tm (st "T"); Nt (st "T")].
  split; [right; left; reflexivity|]. split; [left; reflexivity|]. split; [left; reflexivity|lazy; reflexivity].
Qed.
Print Assumptions name_clash_noticed_refuted.
(** ... and a nonterminal may lack productions, which is noticed when it is sampled. *)
Theorem missing_production_noticed_refuted : exists G n rhs m, In (n, rhs) G /\ In (Nt m) rhs /\ ~ In m (map fst G) /\ init G = Ok G /\ sample1 G 9 n [0] = Err RuntimeError.
Proof.
  exists [(st "S", [Nt (st "T")])], (st "S"), [Nt (st "T")], (st "T"). split; [left; reflexivity|]. split; [left; reflexivity|]. split; [no_in|]. split; lazy; reflexivity.
Qed.
Print Assumptions missing_production_noticed_refuted.

(** ** Probabilities (C102) *)
(** one half for the productions of S, a quarter and three quarters for those of T *)
Definition pr (n : str) : list Q :=
  if list_eq_dec ascii_dec n (st "S") then [1 # 2; 1 # 2] else if list_eq_dec ascii_dec n (st "T") then [1 # 4; 3 # 4] else [1 # 1].
Definition dict_of (names : list str) (p : str -> list Q) : list (key * list Q) := map (fun n => (KStr n, p n)) names.
Ltac ok_solid := split; [discriminate|intros ? I; lazy in I; intros J; lazy in J; intuition congruence].
Lemma gr_clear : clear gr.
Proof.
  split; [repeat (constructor; [no_in|]); constructor|split].
  - intros ? ? I; by_cases I; (split; [ok_solid|repeat (constructor; [first [split; [ok_solid|no_in]|lazy; tauto]|]); constructor]).
  - intros n r r' I J (z & E). destruct I as [I|[I|[I|[I|[I|[]]]]]]; injection I as <- <-; destruct J as [J|[J|[J|[J|[J|[]]]]]]; try discriminate; injection J as <-; try reflexivity; discriminate.
Qed.
(** The probability of a tree is the product of those of the productions it uses, if no right side is the
    beginning of another one and symbols are without blanks and brackets. *)
Theorem prior_is_product : forall T (one zero : T) mul add ln_eps G p names s t, clear G -> incl (map fst G) names ->
  (forall n, In n names -> length (p n) = count_occ (list_eq_dec ascii_dec) (map fst G) n) -> derived G s t ->
  exists ws, Forall2 (weight G p) (used t) ws /\ compute_prior one zero mul add ln_eps G (map (fun n => (KStr n, p n)) names) false (text t) = Ok (fold_left mul ws one).
Proof.
  intros T one zero mul add ln_eps G p names s t CL I L D. apply (prior_product one zero mul add ln_eps G p names s t CL I); [|exact D]. intros n N. rewrite rules_count. apply L, N.
Qed.
Example prior_is_product_ex : clear gr /\ incl (map fst gr) (map st ["S"; "T"; "ADD"]) /\ (forall n, In n (map st ["S"; "T"; "ADD"]) -> length (pr n) = count_occ (list_eq_dec ascii_dec) (map fst gr) n) /\
  derived gr (st "S") tr /\ exists x, compute_prior 1%Q 0%Q Qmult Qplus (fun x => x) gr (dict_of (map st ["S"; "T"; "ADD"]) pr) false (text tr) = Ok x /\ x == 3 # 64.
Proof.
  split; [exact gr_clear|]. split; [intros n I; lazy in I |- *; tauto|]. split; [intros n [<-|[<-|[<-|[]]]]; reflexivity|]. split; [exact tr_derived|].
  eexists. split; [lazy; reflexivity|reflexivity].
Qed.
Print Assumptions prior_is_product.

(** With logarithms, which is the default, it always fails: the prior has strings as keys (the setter asks
    for them), and nonterminals are looked up. *)
Theorem log_prior_fails : forall T (one zero : T) mul add ln_eps G p names s t, clear G -> incl (map fst G) names ->
  (forall n, In n names -> length (p n) = count_occ (list_eq_dec ascii_dec) (map fst G) n) -> derived G s t ->
  compute_prior one zero mul add ln_eps G (map (fun n => (KStr n, p n)) names) true (text t) = Err KeyError.
Proof.
  intros T one zero mul add ln_eps G p names s t CL I L D. apply (prior_log_fails one zero mul add ln_eps G p names s t CL I); [|exact D]. intros n N. rewrite rules_count. apply L, N.
Qed.
Example log_prior_fails_ex : clear gr /\ compute_prior 1%Q 0%Q Qmult Qplus (fun x => x) gr (dict_of (map st ["S"; "T"; "ADD"]) pr) true (text tr) = Err KeyError.
Proof. split; [exact gr_clear|lazy; reflexivity]. Qed.
Print Assumptions log_prior_fails.
Theorem log_prior_refuted : exists t, derived gr (st "S") t /\ compute_prior 1%Q 0%Q Qmult Qplus (fun x => x) gr (dict_of (map st ["S"; "T"; "ADD"]) pr) true (text t) = Err KeyError.
Proof. exists tr. split; [exact tr_derived|lazy; reflexivity]. Qed.
Print Assumptions log_prior_refuted.

(** Where one right side is the beginning of another: an error, ... *)
Definition gr_short : grammar := Eval lazy in [(st "S", [Tm (st "a")]); (st "S", [Tm (st "a"); Tm (st "b")])].
Definition gr_long : grammar := Eval lazy in [(st "S", [Tm (st "a"); Tm (st "b")]); (st "S", [Tm (st "a")])].
Definition pr2 (n : str) : list Q := [1 # 4; 3 # 4].
Theorem prior_of_longer_refuted : exists t, derived gr_short (st "S") t /\ compute_prior 1%Q 0%Q Qmult Qplus (fun x => x) gr_short (dict_of [st "S"] pr2) false (text t) = Err IndexError.
Proof. exists (Node (st "S") [Leaf (st "a"); Leaf (st "b")]). split; [ok_tree|lazy; reflexivity]. Qed.
Print Assumptions prior_of_longer_refuted.
(** ... or the probability of the other production. *)
Theorem prior_of_shorter_refuted : exists t x, derived gr_long (st "S") t /\ compute_prior 1%Q 0%Q Qmult Qplus (fun x => x) gr_long (dict_of [st "S"] pr2) false (text t) = Ok x /\
  x == 1 # 4 /\ Forall2 (weight gr_long pr2) (used t) [3 # 4].
Proof.
  exists (Node (st "S") [Leaf (st "a")]). eexists. split; [ok_tree|]. split; [lazy; reflexivity|]. split; [reflexivity|]. constructor; [exists 1; split; reflexivity|constructor].
Qed.
Print Assumptions prior_of_shorter_refuted.

(** ** Choosing subtrees (C103) *)
(** The positions that are considered are those of subtrees whose symbol has several productions. *)
Theorem considered_positions : forall G t s i, grammar_ok G -> derived G s t -> In i (positions (swappable G) (text t)) <-> exists n, open_at G t i n.
Proof. exact positions_open. Qed.
Example considered_positions_ex : grammar_ok gr /\ derived gr (st "S") tr /\ positions (swappable gr) (text tr) = [0; 1; 2; 6].
Proof. split; [exact gr_ok|]. split; [exact tr_derived|lazy; reflexivity]. Qed.
Print Assumptions considered_positions.

(** Not so if a terminal is a letter followed by a nonterminal: it is taken for a subtree, and mutation
    gives a string that is not a tree. *)
Definition gr_letter : grammar := Eval lazy in [(st "S", [Nt (st "T"); Tm (st "xT"); Nt (st "T")]); (st "T", [Tm (st "a")]); (st "T", [Tm (st "b")])].
Theorem letter_and_nonterminal_refuted : exists t draws r, derived gr_letter (st "S") t /\ graph_mutate gr_letter 9 (text t) None draws = Ok r /\ forall n u, derived gr_letter n u -> r <> text u.
Proof.
  exists (Node (st "S") [leaf "T" "a"; Leaf (st "xT"); leaf "T" "b"]), [1; 0], (st "(S (T a) (T a)"). split; [ok_tree|]. split; [lazy; reflexivity|]. intros n u (R & P) E.
  assert (D : depth (text u) = 0%Z).
  { apply (depth_text gr_letter); [|exact P|destruct u; [discriminate|exact Logic.I]]. intros m rhs I. by_cases I; (split; [reflexivity|repeat (constructor; [first [reflexivity|exact Logic.I]|]); constructor]). }
  rewrite <- E in D. discriminate D.
Qed.
Print Assumptions letter_and_nonterminal_refuted.

(** rand_subtree can choose each such subtree but the first one. *)
Theorem choosable_subtrees : forall G t s i n, grammar_ok G -> derived G s t ->
  (exists draws d, rand_subtree G (text t) draws = Ok (n, i, d)) <-> open_at G t i n /\ exists j m, j < i /\ open_at G t j m.
Proof. exact rand_subtree_open. Qed.
Example choosable_subtrees_ex : grammar_ok gr /\ derived gr (st "S") tr /\ open_at gr tr 1 (st "S") /\ open_at gr tr 0 (st "S") /\ rand_subtree gr (text tr) [1] = Ok (st "S", 1, []).
Proof.
  split; [exact gr_ok|]. split; [exact tr_derived|]. split; [split; [lazy; lia|eexists _, _; exact s_begins]|]. split; [split; [lazy; lia|]|lazy; reflexivity].
  exists [], [Node (st "S") [leaf "T" "2"]; leaf "ADD" "+"; leaf "T" "1"]. split; [reflexivity|split; [reflexivity|discriminate]].
Qed.
Print Assumptions choosable_subtrees.
Theorem first_subtree_refuted : exists t i, grammar_ok gr_pair /\ derived gr_pair (st "S") t /\ open_at gr_pair t i (st "T") /\ forall draws d, rand_subtree gr_pair (text t) draws <> Ok (st "T", i, d).
Proof.
  exists (Node (st "S") [leaf "T" "a"; leaf "T" "a"]), 1. split; [ok_grammar|]. split; [ok_tree|]. split.
  - split; [lazy; lia|]. exists [(st "S", [], [leaf "T" "a"])], [Leaf (st "a")]. split; [reflexivity|split; [reflexivity|discriminate]].
  - intros draws d E. destruct draws as [|[|[|[|k]]] draws]; try discriminate.
Qed.
Print Assumptions first_subtree_refuted.
(** A tree with one such subtree can neither be mutated (except by "bananas") nor crossed over. *)
Definition gr_one : grammar := Eval lazy in [(st "S", [Nt (st "T")]); (st "T", [Tm (st "a")]); (st "T", [Tm (st "b")])].
Theorem single_subtree_refuted : exists t i, grammar_ok gr_one /\ derived gr_one (st "S") t /\ open_at gr_one t i (st "T") /\
  (forall draws, graph_mutate gr_one 9 (text t) None draws = Err ValueError) /\ forall t2 draws, graph_crossover gr_one (text t) t2 draws = Err ValueError.
Proof.
  exists (Node (st "S") [leaf "T" "a"]), 1. split; [ok_grammar|]. split; [ok_tree|]. split; [|split; intros; reflexivity].
  split; [lazy; lia|]. exists [(st "S", [], [])], [Leaf (st "a")]. split; [reflexivity|split; [reflexivity|discriminate]].
Qed.
Print Assumptions single_subtree_refuted.

(** ** Children (C103) *)
(** A mutated architecture is a different tree of the grammar with the same start symbol. *)
Theorem mutated_child : forall G fuel s t strategy draws r, grammar_ok G -> derived G s t -> graph_mutate G fuel (text t) strategy draws = Ok r ->
  exists u, derived G s u /\ r = text u /\ u <> t.
Proof. exact graph_mutate_tree. Qed.
Example mutated_child_ex : grammar_ok gr /\ derived gr (st "S") tr /\
  graph_mutate gr 9 (text tr) None [2; 0] = Ok (text tr2) /\ graph_mutate gr 9 (text tr) (Some [false; true; false; false]) [1; 0] = Ok (text tr2).
Proof. split; [exact gr_ok|]. split; [exact tr_derived|]. split; lazy; reflexivity. Qed.
Print Assumptions mutated_child.
(** "bananas", the default, goes through the subtrees and may leave all of them alone: then the parent is
    found to be the same as the child, and there is an error. *)
Theorem default_mutation_refuted : exists t coins, derived gr (st "S") t /\ (exists i n, open_at gr t i n) /\ forall fuel draws, graph_mutate gr fuel (text t) (Some coins) draws = Err RuntimeError.
Proof.
  exists tr, [false; false; false; false]. split; [exact tr_derived|]. split; [exists 1, (st "S"); split; [lazy; lia|eexists _, _; exact s_begins]|]. intros. reflexivity.
Qed.
Print Assumptions default_mutation_refuted.
(** It never divides by zero, unless there is nothing to choose in the parent. *)
Theorem bananas_child : forall G fuel s t patience coins draws, grammar_ok G -> derived G s t ->
  match bananas_mutate G fuel (text t) patience coins draws with
  | Ok (r, same) => (exists u, derived G s u /\ r = text u) /\ (same = true <-> r = text t)
  | Err e => e = ZeroDivisionError <-> forall i n, ~ open_at G t i n
  end.
Proof. exact bananas_open. Qed.
Example bananas_child_ex : grammar_ok gr /\ derived gr (st "S") tr /\ bananas_mutate gr 9 (text tr) 50 [true; true] [1; 0; 1] = Ok (st "(S (T 2))", false).
Proof. split; [exact gr_ok|]. split; [exact tr_derived|lazy; reflexivity]. Qed.
Print Assumptions bananas_child.

(** Crossover exchanges two subtrees of the same symbol, neither of them the whole tree; both children are
    trees of the grammar. *)
Theorem crossover_children : forall G t1 t2 s1 s2 draws a b, grammar_ok G -> derived G s1 t1 -> derived G s2 t2 -> graph_crossover G (text t1) (text t2) draws = Ok (a, b) ->
  exists c1 c2 n x y, c1 <> [] /\ c2 <> [] /\ choice G n /\ t1 = plug c1 x /\ t2 = plug c2 y /\ root x = Nt n /\ root y = Nt n /\
    a = text (plug c1 y) /\ b = text (plug c2 x) /\ derived G s1 (plug c1 y) /\ derived G s2 (plug c2 x).
Proof. exact graph_crossover_trees. Qed.
Example crossover_children_ex : grammar_ok gr /\ derived gr (st "S") tr /\ derived gr (st "S") tr2 /\
  graph_crossover gr (text tr) (text tr2) [1; 1] = Ok (text tr2, text tr).
Proof. split; [exact gr_ok|]. split; [exact tr_derived|]. split; [exact tr2_derived|lazy; reflexivity]. Qed.
Print Assumptions crossover_children.
(** A donor that has the symbol only at its root counts as not having it. *)
Theorem donor_root_refuted : exists t2 cs, derived gr (st "S") t2 /\ begins t2 0 [] (st "S") cs /\ rand_subtree gr (text tr) [1] = Ok (st "S", 1, []) /\
  forall draws, graph_crossover gr (text tr) (text t2) (1 :: draws) = Err RuntimeError.
Proof.
  exists (Node (st "S") [leaf "T" "1"]), [leaf "T" "1"]. split; [ok_tree|]. split; [split; [reflexivity|split; [reflexivity|discriminate]]|]. split; [lazy; reflexivity|]. intros. lazy. reflexivity.
Qed.
Print Assumptions donor_root_refuted.
