(** From the text of a parse tree to the composition of topologies and primitives:
    neps/search_spaces/architecture/core_graph_grammar.py:878-960, 977-998.

    [topology]: which terminals stand for topologies, the others stand for primitives; the object
    that a topology makes of its arguments is just a pair of both. *)
From Verif Require Import Py Cfg_model.
Open Scope list_scope.
Local Notation length := List.length.

(** core_graph_grammar.py:917: [topology( *primitives)] *)
Inductive fn : Type := Prim (w : str) | Comp (t : str) (args : list fn).

Section Compose.
  Variable G : grammar.
  Variable topology : str -> bool.

  (** core_graph_grammar.py:986-998 find_longest_match: how many characters of [rest] make a symbol;
      [k]: as many are tried first *)
  Fixpoint longest (symbols : list str) (rest : str) (k : nat) : res nat :=
    match k with
    | O => Err RuntimeError
    | S k' => if mem (firstn k rest) symbols then Ok k else longest symbols rest k'
    end.
  (** core_graph_grammar.py:893-894 *)
  Definition symbols : list str := nonterminals G ++ terminals G.
  Definition max_match : nat := fold_right Nat.max 0%nat (map (length (A:=ascii)) symbols).

  (** core_graph_grammar.py:902-904: q_nonterminals, q_topologies, q_primitives, the last one first;
      and composed_function, if there is one *)
  Record stacks : Type := mkStacks { q_nts : list str; q_tops : list (str * nat); q_prims : list fn; composed : option fn }.
  (** core_graph_grammar.py:919-920, 940-941: a primitive, or what was composed, for the last topology *)
  Definition put (f : fn) (q : stacks) : res stacks :=
    match q_tops q with
    | [] => Err IndexError
    | (t, k) :: ts => Ok (mkStacks (q_nts q) ((t, S k) :: ts) (f :: q_prims q) (composed q))
    end.
  (** core_graph_grammar.py:909-921: a closing bracket; [queue.Empty] is a RuntimeError here *)
  Definition close_production (q : stacks) : res stacks :=
    bind (if Nat.eqb (length (q_nts q)) (length (q_tops q)) then
            match q_tops q with
            | [] => Err RuntimeError
            | (t, k) :: ts =>
                if Nat.ltb (length (q_prims q)) k then Err RuntimeError
                else let f := Comp t (rev (firstn k (q_prims q))) in
                     let q' := mkStacks (q_nts q) ts (skipn k (q_prims q)) (Some f) in
                     match ts with [] => Ok q' | _ => put f q' end
            end
          else Ok q) (fun q =>
    match q_nts q with [] => Err RuntimeError | _ :: ns => Ok (mkStacks ns (q_tops q) (q_prims q) (composed q)) end).
  (** core_graph_grammar.py:927-945: a symbol; [before]: the character before its last one *)
  Definition take (sym : str) (before : ascii) (q : stacks) : res stacks :=
    if mem sym (terminals G) && negb (Ascii.eqb before chr_open) then
      if topology sym then Ok (mkStacks (q_nts q) ((sym, O) :: q_tops q) (q_prims q) (composed q))
      else put (Prim sym) q
    else if mem sym (nonterminals G) then Ok (mkStacks (sym :: q_nts q) (q_tops q) (q_prims q) (composed q))
    else Err RuntimeError.

  (** core_graph_grammar.py:905-947: [rest] is what is left of the text, [prev] the character before,
      [skip] the number of characters that belong to the symbol before, [last] the last character of
      the text (the one at -1).  skip_char is core_graph_grammar.py:977-983. *)
  Fixpoint run (last : ascii) (rest : str) (prev : option ascii) (skip : nat) (q : stacks) : res stacks :=
    match rest with
    | [] => Ok q
    | a :: rest' =>
        match skip with
        | S skip' => run last rest' (Some a) skip' q
        | O =>
            let before := match prev with Some b => b | None => last end in
            let next := run last rest' (Some a) 0 in
            let symbol_here :=
              bind (longest symbols rest (Nat.min max_match (length rest'))) (fun k =>
              let sym := firstn k rest in
              bind (take sym (match rev sym with _ :: b :: _ => b | _ => before end) q) (fun q =>
              run last rest' (Some a) (pred k) q)) in
            if whitespace a then next q
            else if Ascii.eqb a chr_open then
              match prev with
              | None => next q
              | Some b =>
                  if Ascii.eqb b chr_blank then
                    match rest' with
                    | [] => Err IndexError
                    | c :: _ => if Ascii.eqb c chr_blank then symbol_here else next q
                    end
                  else next q
              end
            else if Ascii.eqb a chr_close && negb (Ascii.eqb before chr_blank) then bind (close_production q) next
            else symbol_here
        end
    end.
  (** core_graph_grammar.py:878-960 _compose_functions, without flattening; a graph without edges is
      refused (110-113) *)
  Definition compose_functions (descriptor : str) : res fn :=
    match symbols with
    | [] => Err ValueError
    | _ =>
        bind (run (List.last descriptor chr_blank) descriptor None 0 (mkStacks [] [] [] None)) (fun q =>
        match q_tops q with
        | _ :: _ => Err RuntimeError
        | [] => match composed q with
                | None => Err UnboundLocalError
                | Some (Comp t []) => Err ValueError
                | Some f => Ok f
                end
        end)
    end.
End Compose.
