(** Priors of grammars: how they are checked when they are set, and how trees are sampled with them
    (neps/search_spaces/architecture/cfg.py:41-128; called from graph_grammar.py:232-241).

    Grammars are those of Cfg_model.  Numbers are rational, sums are exact.  A prior has strings as keys.  [us]: the
    numbers from [0, 1) that numpy draws for np.random.choice one after the other; an execution for which there
    are not enough of them, or that is too deep for [fuel], is [Err OutOfFuel].  Exception is [RuntimeError].
    Sampling without a prior is in Cfg_model, the value of a prior (compute_prior) too. *)
From Verif Require Export Cfg_model.
From Coq Require Import QArith Qabs Qminmax.
Open Scope list_scope.
Local Notation length := List.length.

Definition prior := list (str * list Q).
(** [sum], used in cfg.py:59 *)
Definition total (p : list Q) : Q := fold_right Qplus 0 p.
(** [math.isclose(s, 1.0)] with its default tolerances, used in cfg.py:59 *)
Definition isclose1 (s : Q) : bool := Qle_bool (Qabs (s - 1)) ((1 # 1000000000) * Qmax (Qabs s) 1).
(** cfg.py:48-62 _check_prior, for one nonterminal *)
Definition check1 (G : grammar) (value : prior) (n : str) : bool :=
  match assoc n value with
  | None => false
  | Some p => Nat.eqb (length p) (length (rules G n)) && isclose1 (total p)
  end.
(** cfg.py:46-66: the prior afterwards (before: [old]), and the outcome *)
Definition set_prior (G : grammar) (old value : option prior) : option prior * res unit :=
  match value with
  | None => (None, Ok tt)
  | Some v => if forallb (check1 G v) (nonterminals G) then (Some v, Ok tt) else (old, Err RuntimeError)
  end.

(** [cdf = p.cumsum(); cdf /= cdf[-1]; cdf.searchsorted(u, side="right")] (np.random.choice, used in cfg.py:112) *)
Fixpoint search (acc t : Q) (p : list Q) (u : Q) : nat :=
  match p with [] => 0%nat | x :: p' => if Qle_bool ((acc + x) / t) u then S (search (acc + x) t p' u) else 0%nat end.
(** [np.random.choice(productions, p=...)] with its checks; the tolerance is the root of the machine's epsilon
    (used in cfg.py:112) *)
Definition choice (ps : list production) (p : list Q) (u : Q) : res nat :=
  if negb (Nat.eqb (length p) (length ps)) then Err ValueError
  else if existsb (fun x => negb (Qle_bool 0 x)) p then Err ValueError
  else if negb (Qle_bool (Qabs (total p - 1)) (1 # 67108864)) then Err ValueError
  else Ok (search 0 (total p) p u).
(** cfg.py:106-112, with user_priors and a prior *)
Definition pick (G : grammar) (pr : prior) (n : str) (u : Q) : res nat :=
  match rules G n with
  | [] => Err RuntimeError
  | ps => match assoc n pr with None => Err KeyError | Some p => choice ps p u end
  end.
(** cfg.py:116-126 *)
Fixpoint expandw (rec : str -> list Q -> cache -> res (str * list Q * cache))
    (rhs : list symbol) (tree : str) (us : list Q) (c : cache) : res (str * list Q * cache) :=
  match rhs with
  | [] => Ok (tree, us, c)
  | Tm s :: rhs' => expandw rec rhs' (tree ++ chr_blank :: s) us c
  | Nt m :: rhs' =>
      match assoc m c with
      | Some cached => expandw rec rhs' (tree ++ chr_blank :: cached ++ [chr_close]) us c
      | None =>
          bind (rec m us c) (fun '(cached, us, c) =>
          expandw rec rhs' (tree ++ chr_blank :: cached ++ [chr_close]) us ((m, cached) :: c))
      end
  end.
(** cfg.py:91-128 _sampler, with user_priors and a prior *)
Fixpoint samplew (G : grammar) (pr : prior) (fuel : nat) (n : str) (us : list Q) (c : cache) : res (str * list Q * cache) :=
  match fuel, us with
  | 0%nat, _ | _, [] => Err OutOfFuel
  | S fuel', u :: us' =>
      bind (pick G pr n u) (fun k =>
      match nth_error (rules G n) k with
      | None => Err IndexError
      | Some p => expandw (samplew G pr fuel') (snd p) (chr_open :: n) us' c
      end)
  end.
