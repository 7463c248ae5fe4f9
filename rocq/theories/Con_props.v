(** C140: what is sampled from a grammar with constraints, and mutated, obeys them. *)
From Verif Require Import Py Cfg_model Cfg_spec Con_model Con_spec Con_proofs.
Local Open Scope nat_scope.
Local Open Scope list_scope.
Local Notation length := List.length.

(** ** an example: cells of three operations that may not all be none *)
Definition st (s : string) : str := list_ascii_of_string s.
Definition gr : grammar := [(st "S", [Tm (st "cell"); Nt (st "OP"); Nt (st "OP")]); (st "OP", [Tm (st "none")]); (st "OP", [Tm (st "conv")]); (st "OP", [Nt (st "S")])].
(** the last operation may be none only if the first one is not *)
Definition unknown (s : symbol) : res (list (option str)) := if symbol_eqb s (Tm (st "cell")) then Ok [None; None] else Ok [None].
Definition f (s : symbol) (der : list (option str)) : context :=
  match der with
  | [Some a; None] => CtxList [true; negb (str_eqb a (st "(OP none)"))]
  | _ => CtxBool true
  end.
Definition C : constraints (symbol * list (option str) * nat) := by_function (Some (st "none")) unknown f.
Definition op (s : string) : tree := Node (st "OP") [Leaf (st s)].
Definition cell (a b : tree) : tree := Node (st "S") [Leaf (st "cell"); a; b].

(** *** C140 *)

(** What is sampled is a tree of the grammar that obeys the constraints everywhere, and its first production is
    not one of those refused. *)
Theorem sampled_obeys : forall St G (C : constraints St) fuel n na draws s d, csample1 G C fuel n na draws = Ok (s, d) ->
  exists cs, s = text (Node n cs) /\ derived G n (Node n cs) /\ obeys G C (Node n cs) /\ ~ In (n, map root cs) na.
Proof. exact @csample1_ok. Qed.
Example sampled_obeys_ex : csample1 gr C 5 (st "S") [] [0; 0; 0] = Ok (st "(S cell (OP none) (OP conv))", []).
Proof. lazy. reflexivity. Qed.

(** Every such tree can be sampled. *)
Theorem obeying_is_sampled : forall St G (C : constraints St) n cs na, derived G n (Node n cs) -> obeys G C (Node n cs) -> ~ In (n, map root cs) na ->
  exists fuel draws, csample1 G C fuel n na draws = Ok (text (Node n cs), []).
Proof. exact @csample1_all. Qed.
Example obeying_is_sampled_ex : derived gr (st "S") (cell (op "conv") (op "none")) /\ obeys gr C (cell (op "conv") (op "none")).
Proof.
  split; [split; [reflexivity|cbn; repeat (split; auto 10)]|]. apply obeys_node with (st := (Tm (st "cell"), [None; None], 0)); [reflexivity|]. apply goes_leaf.
  apply goes_node with (na := []) (st' := (Tm (st "cell"), [Some (text (op "conv")); None], 1)); [lazy; reflexivity|intros []| |lazy; reflexivity|].
  - apply obeys_node with (st := (Tm (st "conv"), [None], 0)); [lazy; reflexivity|]. repeat constructor.
  - apply goes_node with (na := []) (st' := (Tm (st "cell"), [Some (text (op "conv")); Some (text (op "none"))], 2)); [lazy; reflexivity|intros []| |lazy; reflexivity|constructor].
    apply obeys_node with (st := (Tm (st "none"), [None], 0)); [lazy; reflexivity|]. repeat constructor.
Qed.

(** For a function of constraints: where it forbids the operation, given the subtrees so far, there is another
    one. *)
Theorem function_is_obeyed : forall G o unknown f n cs l m ds r, obeys G (by_function (Some o) unknown f) (Node n cs) -> cs = l ++ Node m ds :: r -> In (m, map root ds) G ->
  exists s0 der0, hd_error (map root cs) = Some s0 /\ unknown s0 = Ok der0 /\
    (forbids (f s0 (map (fun c => Some (text c)) (inner l) ++ skipn (length (inner l)) der0)) (length (inner l)) -> map root ds <> [Tm o]).
Proof. exact obeys_function. Qed.
Example function_is_obeyed_ex : forbids (f (Tm (st "cell")) [Some (text (op "none")); None]) 1 /\
  csample1 gr C 5 (st "S") [] [0; 0; 0] = Ok (text (cell (op "none") (op "conv")), []) /\ ~ obeys gr C (cell (op "none") (op "none")).
Proof.
  split; [lazy; reflexivity|]. split; [lazy; reflexivity|]. intros H. destruct (obeys_function gr (st "none") unknown f _ _ [Leaf (st "cell"); op "none"] (st "OP") [Leaf (st "none")] [] H eq_refl) as (s0 & der0 & E1 & E2 & X); [right; left; reflexivity|].
  change (Some (Tm (st "cell")) = Some s0) in E1. assert (s0 = Tm (st "cell")) by congruence. subst s0. assert (der0 = [None; None]) by (assert (E3 : unknown (Tm (st "cell")) = Ok [None; None]) by (lazy; reflexivity); congruence). subst der0. apply X; [lazy; reflexivity|reflexivity].
Qed.

(** Nothing but the operation itself is ever refused by a function. *)
Theorem only_the_operation : forall o ps b p, In p (not_allowed o ps b) <-> In p ps /\ b = false /\ exists w, o = Some w /\ snd p = [Tm w].
Proof. exact not_allowed_in. Qed.
Example only_the_operation_ex : not_allowed (Some (st "none")) gr false = [(st "OP", [Tm (st "none")])] /\ not_allowed (Some (st "none")) gr true = [].
Proof. split; lazy; reflexivity. Qed.

(** For an object of constraints: below a topology for which it has none there can be no subtrees at all. *)
Theorem no_constraints_no_subtrees : forall G (O : Type) init get upd n c cs, obeys G (@by_object O init get upd) (Node n (c :: cs)) -> init (root c) = None -> inner (c :: cs) = [].
Proof. exact @obeys_none. Qed.
Example no_constraints_no_subtrees_ex : obeys gr (by_object (O := nat) (fun _ => None) (fun _ _ => Ok []) (fun n _ => Ok n)) (op "conv").
Proof. apply obeys_node with (st := None); [reflexivity|repeat constructor]. Qed.
(** So a topology cannot be left without constraints, though None is provided for. *)
Theorem no_constraints_refuted : exists G (O : Type) init get upd n t, derived G n t /\ (forall s, init s = None) /\ forall fuel draws s d, csample1 G (@by_object O init get upd) fuel n [] draws <> Ok (s, d).
Proof.
  exists [(st "S", [Tm (st "sum"); Nt (st "T")]); (st "T", [Tm (st "a")])], nat, (fun _ => None), (fun _ _ => Ok []), (fun n _ => Ok n), (st "S"), (Node (st "S") [Leaf (st "sum"); Node (st "T") [Leaf (st "a")]]).
  split; [split; [reflexivity|cbn; repeat (split; auto 10)]|]. split; [reflexivity|]. intros fuel draws s d E. destruct (csample1_ok _ _ _ _ _ _ _ _ E) as (cs & _ & (_ & P & _) & O & _). cbn [In] in P. destruct P as [P|[P|[]]]; [|discriminate].
  assert (R : map root cs = [Tm (st "sum"); Nt (st "T")]) by congruence. destruct cs as [|c [|[w|m ds] [|? ?]]]; try discriminate. apply obeys_none in O; [|reflexivity]. destruct c; discriminate.
Qed.

(** A mutation is a tree of the grammar again, and the new subtree obeys the constraints and is none that is
    refused at its place. *)
Theorem constrained_mutation : forall St G (C : constraints St) na fuel s t i c n cs patience draws r d, grammar_ok G -> derived G s t -> begins t i c n cs ->
  cmutate G C na fuel (text t) i n patience draws = Ok (r, d) ->
  exists us, r = text (plug c (Node n us)) /\ derived G s (plug c (Node n us)) /\ obeys G C (Node n us) /\ (c <> [] -> exists l, na (before c) (after c) = Ok l /\ ~ In (n, map root us) l).
Proof. exact @cmutate_ok. Qed.
Example constrained_mutation_ex : cmutate gr C (fun _ _ => Ok [(st "OP", [Tm (st "none")])]) 5 (text (cell (op "none") (op "conv"))) 4 (st "OP") 50 [0; 1; 0; 1; 1] = Ok (st "(S cell (OP none) (OP (S cell (OP conv) (OP conv))))", []).
Proof. lazy. reflexivity. Qed.
(** The subtree cannot be mutated, although there are other operations, if the symbol above it occurs in a
    subtree before it: the wrong place is looked at. *)
Theorem mutation_refuted : exists G n t i c m cs, grammar_ok G /\ derived G n t /\ begins t i c m cs /\ c <> [] /\ (exists us, derived G m (Node m us) /\ us <> cs) /\
  (forall p, In p G -> exists w rhs, snd p = Tm w :: rhs) /\
  forall St (C : constraints St) none_operation f derivation fuel patience draws, cmutate G C (na_by_function G none_operation f m derivation) fuel (text t) i m patience draws = Err RuntimeError.
Proof. exact no_mutation. Qed.

(** Crossover is never done with an object of constraints. *)
Theorem no_crossover : forall A (rest : res A), ccrossover true rest = Err NotImplementedError.
Proof. reflexivity. Qed.
Theorem crossover_refuted : exists A (rest : res A) a, rest = Ok a /\ ccrossover true rest <> Ok a.
Proof. exists nat, (Ok 0), 0. split; [reflexivity|discriminate]. Qed.
Example no_crossover_ex : ccrossover false (Ok 1) = Ok 1 /\ ccrossover true (Ok 1) = Err NotImplementedError.
Proof. split; reflexivity. Qed.
(** In a crossover an operation that is refused is turned away if it is "zero", *)
Theorem zero_is_turned_away : forall ps m, In (m, [Tm zero]) ps -> ~ In "("%char m -> ~ In ")"%char m -> turned_away (not_allowed (Some zero) ps false) (text (Node m [Leaf zero])) = true.
Proof. exact zero_away. Qed.
Example zero_is_turned_away_ex : turned_away (not_allowed (Some zero) [(st "OP", [Tm zero])] false) (st "(OP zero)") = true.
Proof. lazy. reflexivity. Qed.
(** but not if none_operation is anything else. *)
Theorem none_is_turned_away_refuted : exists none_operation ps m, In (m, [Tm none_operation]) ps /\ name_ok m /\ In (m, [Tm none_operation]) (not_allowed (Some none_operation) ps false) /\
  turned_away (not_allowed (Some none_operation) ps false) (text (Node m [Leaf none_operation])) = false.
Proof. exists (st "none"), [(st "OP", [Tm (st "none")])], (st "OP"). split; [left; reflexivity|]. split; [repeat split; cbn; intuition discriminate|]. split; [left; reflexivity|]. lazy. reflexivity. Qed.

Print Assumptions sampled_obeys.
Print Assumptions obeying_is_sampled.
Print Assumptions function_is_obeyed.
Print Assumptions only_the_operation.
Print Assumptions no_constraints_no_subtrees.
Print Assumptions no_constraints_refuted.
Print Assumptions constrained_mutation.
Print Assumptions mutation_refuted.
Print Assumptions no_crossover.
Print Assumptions crossover_refuted.
Print Assumptions zero_is_turned_away.
Print Assumptions none_is_turned_away_refuted.
