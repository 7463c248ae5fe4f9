(** What a prior of a grammar should mean (neps/search_spaces/architecture/cfg.py:41-128). *)
From Verif Require Import Wts_model.
From Coq Require Import QArith Qabs Qminmax.
Open Scope list_scope.

(** all probabilities are at least 0 (not checked in cfg.py:46-66) *)
Definition nonneg (pr : prior) : Prop := forall n p x, In (n, p) pr -> In x p -> 0 <= x.
(** every nonterminal on the right has a production (cfg.py:38-40 means to check this) *)
Definition closed (G : grammar) : Prop := forall l r m, In (l, r) G -> In (Nt m) r -> In m (map fst G).
(** the production is one of n, with a probability above 0 (cfg.py:112) *)
Definition likely (G : grammar) (pr : prior) (n : str) (r : list symbol) : Prop :=
  exists i p w, nth_error (filter (fun q => str_eqb (fst q) n) G) i = Some (n, r) /\ assoc n pr = Some p /\ nth_error p i = Some w /\ 0 < w.
(** the texts of trees, without the last parenthesis, all of whose productions are likely (cfg.py:104, 116-126) *)
Inductive possible (G : grammar) (pr : prior) : str -> str -> Prop :=
| Possible n r b : likely G pr n r -> possible_body G pr r b -> possible G pr n (chr_open :: n ++ b)
with possible_body (G : grammar) (pr : prior) : list symbol -> str -> Prop :=
| PossibleNil : possible_body G pr [] []
| PossibleTm s r b : possible_body G pr r b -> possible_body G pr (Tm s :: r) (chr_blank :: s ++ b)
| PossibleNt m t r b : possible G pr m t -> possible_body G pr r b -> possible_body G pr (Nt m :: r) (chr_blank :: t ++ chr_close :: b).
