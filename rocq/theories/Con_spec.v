(** Vocabulary for grammars with constraints. *)
From Verif Require Import Py Cfg_model Cfg_spec Con_model.
Local Open Scope nat_scope.
Local Open Scope list_scope.
Local Notation length := List.length.

(** the productions of a symbol *)
Definition productions_of (G : grammar) (n : str) : list production := filter (fun p => if list_eq_dec ascii_dec (fst p) n then true else false) G.
(** At every node the constraints begin with its first symbol, are asked before each subtree, which is not one
    that they refuse, and are told it. *)
Inductive obeys {St} (G : grammar) (C : constraints St) : tree -> Prop :=
| obeys_leaf w : obeys G C (Leaf w)
| obeys_node n c cs st : begin C (root c) = Ok st -> goes G C st (c :: cs) -> obeys G C (Node n (c :: cs))
with goes {St} (G : grammar) (C : constraints St) : St -> list tree -> Prop :=
| goes_nil st : goes G C st []
| goes_leaf st w cs : goes G C st cs -> goes G C st (Leaf w :: cs)
| goes_node st m ds cs na st' : refused C st m (productions_of G m) = Ok na -> ~ In (m, map root ds) na -> obeys G C (Node m ds) ->
    told C st (text (Node m ds)) = Ok st' -> goes G C st' cs -> goes G C st (Node m ds :: cs).
(** the subtrees that are no leaves *)
Definition inner (cs : list tree) : list tree := filter (fun c => match c with Leaf _ => false | Node _ _ => true end) cs.
(** the constraint function does not allow the operation for the [i]-th subtree *)
Definition forbids (c : context) (i : nat) : Prop := match c with CtxList bs => nth_error bs i = Some false | CtxBool b => b = false | CtxOther => False end.
