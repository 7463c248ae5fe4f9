(** Grammars of architectures: neps/search_spaces/architecture/cfg.py, mutations.py, crossover.py and
    graph_grammar.py:270-315.

    Strings are lists of ASCII characters.  Random choices are arguments: [draws] are the indices
    drawn by numpy one after the other, [coins] the outcomes of [random.random() < probability]; an
    execution for which there are not enough of them, or for which they are out of range, or that
    is too deep for [fuel], is [Err OutOfFuel].  Probabilities only matter for compute_prior.
    Sets of symbols are lists; nothing below depends on their order.  Not modelled: nltk's own
    checks of grammars; negative positions; [return_crossover_subtrees]. *)
From Verif Require Export Yam_model.
Open Scope list_scope.
Local Notation length := List.length.

Definition str := list ascii.
Definition chr_blank : ascii := " "%char. Definition chr_open : ascii := "("%char. Definition chr_close : ascii := ")"%char.
Definition str_eqb (a b : str) : bool := if list_eq_dec ascii_dec a b then true else false.
Definition mem (s : str) (l : list str) : bool := existsb (str_eqb s) l.

(** ** Grammars (nltk.grammar) *)
Inductive symbol : Type := Tm (s : str) | Nt (s : str).
Definition symbol_eqb (a b : symbol) : bool :=
  match a, b with Tm s, Tm t | Nt s, Nt t => str_eqb s t | _, _ => false end.
(** [str(symbol)] *)
Definition symbol_str (a : symbol) : str := match a with Tm s | Nt s => s end.
Definition production : Type := (str * list symbol)%type.
Definition grammar := list production.
Definition prod_eqb (p q : production) : bool := str_eqb (fst p) (fst q) && list_eqb symbol_eqb (snd p) (snd q).
(** [self.productions(lhs=n)] *)
Definition rules (G : grammar) (n : str) : list production := filter (fun p => str_eqb (fst p) n) G.

(** cfg.py:21-22 *)
Definition nonterminals (G : grammar) : list str := nodup (list_eq_dec ascii_dec) (map fst G).
(** 23-26 *)
Definition terminals (G : grammar) : list str :=
  nodup (list_eq_dec ascii_dec) (filter (fun s => negb (mem s (nonterminals G))) (map symbol_str (List.concat (map snd G)))).
(** 28-30 *)
Definition swappable (G : grammar) : list str :=
  filter (fun n => (1 <? length (rules G n))%nat) (nonterminals G).
(** 34-40: the checks of the constructor *)
Definition init (G : grammar) : res grammar :=
  if existsb (fun s => mem s (nonterminals G)) (terminals G) then Err RuntimeError
  else if existsb (fun n => Nat.eqb (length (rules G n)) 0) (nonterminals G) then Err RuntimeError
  else Ok G.

(** ** str.split(" ") and " ".join *)
Fixpoint split (l : str) : list str :=
  match l with
  | [] => [[]]
  | a :: l' => if Ascii.eqb a chr_blank then [] :: split l'
               else match split l' with w :: ws => (a :: w) :: ws | [] => [[a]] end
  end.
Fixpoint join (ws : list str) : str :=
  match ws with [] => [] | [w] => w | w :: ws' => w ++ chr_blank :: join ws' end.

(** ** Sampling *)
(** [_cache.get] *)
Fixpoint assoc {A} (k : str) (l : list (str * A)) : option A :=
  match l with [] => None | (k', v) :: l' => if str_eqb k k' then Some v else assoc k l' end.
Definition cache := list (str * str).
Section Sample.
  Variable G : grammar.
  (** 116-126 *)
  Fixpoint expand (rec : str -> list nat -> cache -> res (str * list nat * cache))
      (rhs : list symbol) (tree : str) (draws : list nat) (c : cache) : res (str * list nat * cache) :=
    match rhs with
    | [] => Ok (tree, draws, c)
    | Tm s :: rhs' => expand rec rhs' (tree ++ chr_blank :: s) draws c
    | Nt m :: rhs' =>
        match assoc m c with
        | Some cached => expand rec rhs' (tree ++ chr_blank :: cached ++ [chr_close]) draws c
        | None =>
            bind (rec m draws c) (fun '(cached, draws, c) =>
            expand rec rhs' (tree ++ chr_blank :: cached ++ [chr_close]) draws ((m, cached) :: c))
        end
    end.
  (** 91-128 *)
  Fixpoint sample (fuel : nat) (n : str) (draws : list nat) (c : cache) : res (str * list nat * cache) :=
    match fuel with
    | 0 => Err OutOfFuel
    | S fuel' =>
        match rules G n with
        | [] => Err RuntimeError
        | ps =>
            match draws with
            | [] => Err OutOfFuel
            | k :: draws' =>
                match nth_error ps k with
                | None => Err OutOfFuel
                | Some p => expand (sample fuel') (snd p) (chr_open :: n) draws' c
                end
            end
        end
    end.
  (** 69-89: one of the strings *)
  Definition sample1 (fuel : nat) (n : str) (draws : list nat) : res (str * list nat) :=
    bind (sample fuel n draws []) (fun '(t, draws, _) => Ok (t ++ [chr_close], draws)).
  (** 69-89 *)
  Fixpoint sampler (fuel : nat) (k : nat) (n : str) (draws : list nat) : res (list str * list nat) :=
    match k with
    | 0 => Ok ([], draws)
    | S k' => bind (sample1 fuel n draws) (fun '(t, draws) =>
              bind (sampler fuel k' n draws) (fun '(ts, draws) => Ok (t :: ts, draws)))
    end.
End Sample.

(** ** Replacing subtrees *)
(** 350-358: where the counter becomes 0 *)
Fixpoint close (counter : Z) (l : str) : nat :=
  match l with
  | [] => 0
  | a :: l' =>
      let counter := (if Ascii.eqb a chr_open then counter + 1 else if Ascii.eqb a chr_close then counter - 1 else counter)%Z in
      if Z.eqb counter 0 then 0 else S (close counter l')
  end.
(** 331-361 *)
Definition remove_subtree (tree : str) (index : nat) : res (str * str * str) :=
  let words := split tree in
  let pre := join (firstn index words) ++ [chr_blank] in
  let right := join (skipn (S index) words) in
  let k := close 1 right in
  match nth_error words index with
  | None => Err IndexError
  | Some w => Ok (pre, w ++ chr_blank :: firstn (S k) right, skipn (S k) right)
  end.

Section Ops.
  Variable G : grammar.
  Variable fuel : nat.
  (** 229-238: [child] is the one before *)
  Fixpoint mutate_loop (patience : nat) (parent pre post : str) (node : str) (child : option str) (draws : list nat) : res (str * list nat) :=
    match patience with
    | 0 => match child with Some c => Ok (strip c, draws) | None => Err UnboundLocalError end
    | S patience' =>
        bind (sample1 G fuel node draws) (fun '(new, draws) =>
        let child := pre ++ new ++ post in
        if str_eqb parent child then mutate_loop patience' parent pre post node (Some child) draws
        else Ok (strip child, draws))
    end.
  (** 212-238 *)
  Definition mutate (parent : str) (index : nat) (node : str) (patience : nat) (draws : list nat) : res (str * list nat) :=
    bind (remove_subtree parent index) (fun '(pre, _, post) => mutate_loop patience parent pre post node None draws).

  (** 292-297, 312-315, mutations.py:33-37: the positions of words whose rest is in [ns] *)
  Definition positions (ns : list str) (tree : str) : list nat :=
    let words := split tree in
    filter (fun i => match nth_error words i with Some w => mem (tl w) ns | None => false end) (seq 0 (length words)).
  (** [split_tree[i][1:]] *)
  Definition word_tail (tree : str) (i : nat) : str := match nth_error (split tree) i with Some w => tl w | None => [] end.
  (** [swappable_indices[np.random.randint(1, len(swappable_indices))]] *)
  Definition draw_after_first (idx : list nat) (draws : list nat) : res (nat * list nat) :=
    if (length idx <=? 1)%nat then Err ValueError
    else match draws with
         | [] => Err OutOfFuel
         | 0 :: _ => Err OutOfFuel
         | r :: draws' => match nth_error idx r with Some i => Ok (i, draws') | None => Err OutOfFuel end
         end.
  (** 281-301 *)
  Definition rand_subtree (tree : str) (draws : list nat) : res (str * nat * list nat) :=
    bind (draw_after_first (positions (swappable G) tree) draws) (fun '(i, draws) => Ok (word_tail tree i, i, draws)).
  (** 303-328; [None]: False *)
  Definition rand_subtree_fixed_head (tree head : str) (draws : list nat) : res (option nat * list nat) :=
    match positions [head] tree with
    | [] => Ok (None, draws)
    | [i] => Ok (Some i, draws)
    | idx => bind (draw_after_first idx draws) (fun '(i, draws) => Ok (Some i, draws))
    end.
  (** 252-279; [None]: False, False *)
  Fixpoint crossover_loop (patience : nat) (parts : str * str * str) (parent2 node : str) (draws : list nat) : res (option (str * str)) :=
    match patience with
    | 0 => Ok None
    | S patience' =>
        bind (rand_subtree_fixed_head parent2 node draws) (fun '(i, draws) =>
        match i with
        | None | Some 0 => crossover_loop patience' parts parent2 node draws
        | Some i =>
            bind (remove_subtree parent2 i) (fun '(dpre, dsub, dpost) =>
            let '(pre, sub, post) := parts in
            Ok (Some (strip (pre ++ dsub ++ post), strip (dpre ++ sub ++ dpost))))
        end)
    end.
  (** 240-279 *)
  Definition crossover (parent1 parent2 : str) (patience : nat) (draws : list nat) : res (option (str * str)) :=
    bind (rand_subtree parent1 draws) (fun '(node, i, draws) =>
    bind (remove_subtree parent1 i) (fun parts => crossover_loop patience parts parent2 node draws)).

  (** ** mutations.py *)
  (** 10-22: the child, and whether it is the parent *)
  Definition simple_mutate (parent : str) (draws : list nat) : res (str * bool) :=
    bind (rand_subtree parent draws) (fun '(node, i, draws) =>
    bind (mutate parent i node 50 draws) (fun '(child, _) => Ok (child, str_eqb parent child))).
  (** 43-68; no [mutation_prob] given *)
  Fixpoint bananas_loop (coins : list bool) (idx : nat) (patience : nat) (tree : str) (draws : list nat) : res str :=
    match nth_error (positions (swappable G) tree) idx with
    | None => Ok tree
    | Some i =>
        match coins with
        | [] => Err OutOfFuel
        | false :: coins' => bananas_loop coins' (S idx) patience tree draws
        | true :: coins' =>
            bind (mutate tree i (word_tail tree i) patience draws) (fun '(child, draws) =>
            match positions (swappable G) child with
            | [] => Err ZeroDivisionError
            | _ => bananas_loop coins' (S idx) patience child draws
            end)
        end
    end.
  (** 25-70 *)
  Definition bananas_mutate (parent : str) (patience : nat) (coins : list bool) (draws : list nat) : res (str * bool) :=
    match positions (swappable G) parent with
    | [] => Err ZeroDivisionError
    | _ => bind (bananas_loop coins 0 patience parent draws) (fun child => Ok (child, str_eqb child parent))
    end.

  (** ** graph_grammar.py *)
  (** 270-298: the string of the child; [coins] for "bananas", which is the default *)
  Definition graph_mutate (parent : str) (strategy : option (list bool)) (draws : list nat) : res str :=
    bind (match strategy with Some coins => bananas_mutate parent 50 coins draws | None => simple_mutate parent draws end)
      (fun '(child, same) => if same then Err RuntimeError else Ok child).
  (** 300-315; crossover.py:12-30 *)
  Definition graph_crossover (parent1 parent2 : str) (draws : list nat) : res (str * str) :=
    bind (crossover parent1 parent2 50 draws) (fun r => match r with None => Err RuntimeError | Some cs => Ok cs end).
End Ops.

(** ** Priors (cfg.py:130-210) *)
(** keys of the prior: strings, or nltk's Nonterminals, which are not equal to strings *)
Inductive key : Type := KStr (s : str) | KNt (s : str).
Definition key_eqb (a b : key) : bool := match a, b with KStr s, KStr t | KNt s, KNt t => str_eqb s t | _, _ => false end.
(** 139: sorted(symbols, key=len, reverse=True) *)
Fixpoint insert_len (s : str) (l : list str) : list str :=
  match l with [] => [s] | t :: l' => if (length t <=? length s)%nat then s :: l else t :: insert_len s l' end.
Definition sort_len (l : list str) : list str := fold_right insert_len [] l.
Fixpoint starts_with (p l : str) : bool :=
  match p, l with [], _ => true | a :: p', b :: l' => Ascii.eqb a b && starts_with p' l' | _, _ => false end.
(** [list.index] *)
Fixpoint index_of (p : production) (l : list production) : option nat :=
  match l with [] => None | q :: l' => if prod_eqb q p then Some 0 else option_map S (index_of p l') end.
(** [production.rhs()[count] == sym] for the productions; IndexError if one is too short *)
Fixpoint keep (f : symbol -> bool) (count : nat) (ps : list production) : res (list production) :=
  match ps with
  | [] => Ok []
  | p :: ps' =>
      match nth_error (snd p) count with
      | None => Err IndexError
      | Some s => bind (keep f count ps') (fun qs => Ok (if f s then p :: qs else qs))
      end
  end.
Definition whitespace (a : ascii) : bool := Ascii.eqb a chr_blank || Nat.eqb (code a) 9 || Nat.eqb (code a) 10.

Section Prior.
  Context {T : Type}.
  Variables (one zero : T) (mul add : T -> T -> T) (ln_eps : T -> T).   (* [np.log(p + 1e-15)] *)
  Variable G : grammar.
  Variable prior : list (key * list T).
  Definition prior_at (k : key) : option (list T) :=
    match find (fun kv => key_eqb (fst kv) k) prior with Some kv => Some (snd kv) | None => None end.
  (** 162-169 *)
  Definition close_rule (log : bool) (q : list (list production * nat)) (acc : T) : res (list (list production * nat) * T) :=
    match q with
    | ([], _) :: _ | [] => Err IndexError
    | (p :: _, _) :: q' =>
        match index_of p (rules G (fst p)) with
        | None => Err ValueError
        | Some i =>
            match prior_at (if log then KNt (fst p) else KStr (fst p)) with
            | None => Err KeyError
            | Some ws => match nth_error ws i with
                         | None => Err IndexError
                         | Some w => Ok (q', if log then add acc (ln_eps w) else mul acc w)
                         end
            end
        end
    end.
  (** 184-204 *)
  Definition take_symbol (sym : str) (q : list (list production * nat)) : res (list (list production * nat)) :=
    if mem sym (terminals G) then
      match q with
      | [] => Err IndexError
      | (ps, c) :: q' => bind (keep (fun s => symbol_eqb s (Tm sym)) c ps) (fun ps => Ok ((ps, S c) :: q'))
      end
    else if mem sym (nonterminals G) then
      bind (match q with
            | [] => Ok []
            | (ps, c) :: q' => bind (keep (fun s => str_eqb (symbol_str s) sym) c ps) (fun ps => Ok ((ps, S c) :: q'))
            end) (fun q => Ok ((rules G sym, 0) :: q))
    else Err RuntimeError.
  (** 144-205: [rest] is what is left of the tree, [prev] the character before, [skip] the number of
      characters that belong to the symbol before; an empty symbol would be found for ever *)
  Fixpoint prior_loop (log : bool) (last : ascii) (rest : str) (prev : option ascii) (skip : nat) (q : list (list production * nat)) (acc : T)
      : res (list (list production * nat) * T) :=
    match rest with
    | [] => Ok (q, acc)
    | a :: rest' =>
        match skip with
        | S skip' => prior_loop log last rest' (Some a) skip' q acc
        | 0 =>
            let next := prior_loop log last rest' (Some a) 0 in
            let symbol_here :=
              let syms := sort_len (nonterminals G ++ terminals G) in
              match find (fun s => starts_with s (firstn (length (hd [] syms)) rest)) syms with
              | None => Err RuntimeError
              | Some [] => Err OutOfFuel
              | Some ((_ :: s) as sym) => bind (take_symbol sym q) (fun q => prior_loop log last rest' (Some a) (length s) q acc)
              end in
            if whitespace a then next q acc
            else if Ascii.eqb a chr_open then
              match prev with
              | None => next q acc
              | Some b => match rest' with
                          | c :: _ => if Ascii.eqb b chr_blank && Ascii.eqb c chr_blank then symbol_here else next q acc
                          | [] => next q acc
                          end
              end
            else if Ascii.eqb a chr_close && negb (Ascii.eqb (match prev with Some b => b | None => last end) chr_blank) then
              bind (close_rule log q acc) (fun '(q, acc) => next q acc)
            else symbol_here
        end
    end.
  (** 130-210 *)
  Definition compute_prior (log : bool) (tree : str) : res T :=
    match sort_len (nonterminals G ++ terminals G) with
    | [] => Err IndexError
    | _ =>
        bind (prior_loop log (List.last tree chr_blank) tree None 0 [] (if log then zero else one)) (fun '(q, acc) =>
        match q with [] => Ok acc | _ => Err RuntimeError end)
    end.
End Prior.
