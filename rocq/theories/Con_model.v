(** Grammars with constraints: neps/search_spaces/architecture/cfg_variants/constrained_cfg.py:14-191, 330-357,
    441-496, 574-594.

    As in Cfg_model, random choices are arguments.  Not modelled: priors (user_priors, compute_prior), the
    rest of _compute_current_context (358-439), which is an argument here, and the rest of crossover. *)
From Verif Require Export Cfg_model.
Local Open Scope nat_scope.
Local Open Scope list_scope.
Local Notation length := List.length.

(** ** Constraints *)

(** What constraints do while the symbols of one production are expanded: the state at first, for the first
    symbol of the production; the productions that are not allowed for a nonterminal; the state after a
    subtree (constrained_cfg.py:150-191) *)
Record constraints {St : Type} : Type := mkCon {
  begin : symbol -> res St;
  refused : St -> str -> list production -> res (list production);
  told : St -> str -> res St
}.
Arguments constraints : clear implicits.

(** constrained_cfg.py:94-104 _get_not_allowed_productions *)
Definition not_allowed (none_operation : option str) (ps : list production) (any_allowed : bool) : list production :=
  filter (fun p => negb any_allowed && match snd p, none_operation with [Tm w], Some o => str_eqb w o | _, _ => false end) ps.
(** what a function of constraints gives: a list, a bool, or anything else (constrained_cfg.py:169-182) *)
Inductive context : Type := CtxList (bs : list bool) | CtxBool (b : bool) | CtxOther.
(** constrained_cfg.py:169-182, 456-474, with the index of the subtree *)
Definition refused_by (none_operation : option str) (c : context) (i : nat) (ps : list production) : res (list production) :=
  match c with
  | CtxList bs => match nth_error bs i with Some b => Ok (not_allowed none_operation ps b) | None => Err IndexError end
  | CtxBool b => Ok (not_allowed none_operation ps b)
  | CtxOther => Err NotImplementedError
  end.
(** current_derivation[i] = s *)
Fixpoint put (l : list (option str)) (i : nat) (s : str) : res (list (option str)) :=
  match l, i with
  | [], _ => Err IndexError
  | _ :: l', 0 => Ok (Some s :: l')
  | x :: l', S i' => bind (put l' i' s) (fun l' => Ok (x :: l'))
  end.
(** constraints that are a function: called with the first symbol it gives the subtrees, all unknown, called
    with them too what is allowed (constrained_cfg.py:153-154, 165-182, 189-191); the state are the subtrees and
    the counter *)
Definition by_function (none_operation : option str) (unknown : symbol -> res (list (option str))) (f : symbol -> list (option str) -> context) :
    constraints (symbol * list (option str) * nat) :=
  mkCon _ (fun s0 => bind (unknown s0) (fun der => Ok (s0, der, 0)))
    (fun '(s0, der, i) _ ps => refused_by none_operation (f s0 der) i ps)
    (fun '(s0, der, i) t => bind (put der i t) (fun der => Ok (s0, der, S i))).
(** constraints that are an object; what initialize_constraints gives may be None
    (constrained_cfg.py:151-152, 160-166, 187-188) *)
Definition by_object {O : Type} (initialize : symbol -> option O) (get : O -> list production -> res (list production)) (update : O -> str -> res O) : constraints (option O) :=
  mkCon _ (fun s0 => Ok (initialize s0))
    (fun o _ ps => match o with Some o => get o ps | None => Ok [] end)
    (fun o t => match o with Some o => bind (update o t) (fun o => Ok (Some o)) | None => Err AttributeError end).

(** ** Sampling *)
Section Sample.
  Context {St : Type}.
  Variables (G : grammar) (C : constraints St).
  (** [production not in not_allowed_productions] (constrained_cfg.py:121-127) *)
  Definition allowed (na : list production) (n : str) : list production := filter (fun p => negb (existsb (prod_eqb p) na)) (rules G n).
  (** constrained_cfg.py:155-191 *)
  Fixpoint cexpand (rec : str -> list production -> list nat -> res (str * list nat)) (rhs : list symbol) (st : St) (tree : str) (draws : list nat) : res (str * list nat) :=
    match rhs with
    | [] => Ok (tree, draws)
    | Tm s :: rhs' => cexpand rec rhs' st (tree ++ chr_blank :: s) draws
    | Nt m :: rhs' =>
        bind (refused C st m (rules G m)) (fun na =>
        bind (rec m na draws) (fun '(ret, draws) =>
        bind (told C st (ret ++ [chr_close])) (fun st =>
        cexpand rec rhs' st (tree ++ chr_blank :: ret ++ [chr_close]) draws)))
    end.
  (** constrained_cfg.py:106-192 _constrained_sampler, without user_priors *)
  Fixpoint csample (fuel : nat) (n : str) (na : list production) (draws : list nat) : res (str * list nat) :=
    match fuel with
    | 0 => Err OutOfFuel
    | S fuel' =>
        match allowed na n with
        | [] => Err RuntimeError
        | ps =>
            match draws with
            | [] => Err OutOfFuel
            | k :: draws' =>
                match nth_error ps k with
                | None => Err OutOfFuel
                | Some p =>
                    match snd p with
                    | [] => Err IndexError
                    | s0 :: _ => bind (begin C s0) (fun st => cexpand (csample fuel') (snd p) st (chr_open :: n) draws')
                    end
                end
            end
        end
    end.
  (** constrained_cfg.py:75-92 sampler: one of the strings *)
  Definition csample1 (fuel : nat) (n : str) (na : list production) (draws : list nat) : res (str * list nat) :=
    bind (csample fuel n na draws) (fun '(t, draws) => Ok (t ++ [chr_close], draws)).
  (** constrained_cfg.py:478-496, the loop of mutate; [child] is the one before *)
  Fixpoint cmutate_loop (fuel patience : nat) (parent pre post node : str) (na : list production) (child : option str) (draws : list nat) : res (str * list nat) :=
    match patience with
    | 0 => match child with Some c => Ok (strip c, draws) | None => Err UnboundLocalError end
    | S patience' =>
        bind (csample1 fuel node na draws) (fun '(new, draws) =>
        let child := pre ++ new ++ post in
        if negb (str_eqb parent child) || Z.eqb (Z.of_nat (length (rules G node)) - Z.of_nat (length na)) 1 then Ok (strip child, draws)
        else cmutate_loop fuel patience' parent pre post node na (Some child) draws)
    end.
  (** constrained_cfg.py:441-496 mutate; [na]: what is not allowed at the place with the text [pre] before and
      [post] after it (446-474) *)
  Definition cmutate (na : str -> str -> res (list production)) (fuel : nat) (parent : str) (index : nat) (node : str) (patience : nat) (draws : list nat) : res (str * list nat) :=
    bind (remove_subtree parent index) (fun '(pre, _, post) =>
    bind (if str_eqb pre [chr_blank] || match post with [] => true | _ => false end then Ok [] else na pre post) (fun na =>
    cmutate_loop fuel patience parent pre post node na None draws)).
End Sample.

(** ** Where a subtree is *)

(** [while sym[-1] == ")"]: the word without its last brackets, from its end (constrained_cfg.py:340-341) *)
Fixpoint strip_close (r : str) : res str :=
  match r with
  | [] => Err IndexError
  | a :: r' => if Ascii.eqb a chr_close then strip_close r' else Ok (rev r)
  end.
(** q_nonterminals.pop() *)
Fixpoint pops {A} (k : nat) (q : list A) : res (list A) :=
  match k, q with 0, _ => Ok q | S _, [] => Err IndexError | S k', _ :: q' => pops k' q' end.
(** constrained_cfg.py:332-345: one word; [q]: the nonterminals that are open, the last one first *)
Definition read_word (G : grammar) (q : list str) (sym : str) : res (list str) :=
  match sym with
  | [] => Ok q
  | a :: rest =>
      let sym := if Ascii.eqb a chr_open then rest else sym in
      match rev sym with
      | [] => Err IndexError
      | z :: _ =>
          bind (if Ascii.eqb z chr_close then bind (pops (count_occ ascii_dec sym chr_close) q) (fun q => bind (strip_close (rev sym)) (fun s => Ok (q, s))) else Ok (q, sym)) (fun '(q, sym) =>
          if mem sym [[chr_blank]; ["009"%char]; ["010"%char]; ["["%char]; ["]"%char]] then Ok q
          else if mem sym (nonterminals G) then Ok (sym :: q) else Ok q)
      end
  end.
(** constrained_cfg.py:332 *)
Fixpoint read_words (G : grammar) (q : list str) (ws : list str) : res (list str) :=
  match ws with [] => Ok q | w :: ws' => bind (read_word G q w) (fun q => read_words G q ws') end.
(** str.rfind, where it is found *)
Fixpoint rfind (p l : str) : option nat :=
  match l with
  | [] => if starts_with p l then Some 0 else None
  | _ :: l' => match rfind p l' with Some i => Some (S i) | None => if starts_with p l then Some 0 else None end
  end.
(** constrained_cfg.py:330-357: the topology, and its productions *)
Definition find_topology (G : grammar) (pre : str) : res (str * list production) :=
  bind (read_words G [] (split pre)) (fun q =>
  match q with
  | [] => Err IndexError
  | n :: _ =>
      let i := match rfind n pre with Some i => i | None => length pre - 1 end in
      let ctx := skipn i pre in
      let topology := hd [] (split (skipn (S (length n)) ctx)) in
      match filter (fun p => str_eqb (firstn (length n) ctx) (fst p) && match snd p with Tm w :: _ => str_eqb w topology | _ => false end) G with
      | [] => Err RuntimeError
      | ps => Ok (topology, ps)
      end
  end).
(** constrained_cfg.py:446-474 for a function; [derivation]: the rest of _compute_current_context (358-439), the
    subtrees of the production, with None at the place *)
Definition na_by_function (G : grammar) (none_operation : option str) (f : symbol -> list (option str) -> context) (node : str)
    (derivation : str -> list production -> str -> str -> res (list (option str) * nat)) (pre post : str) : res (list production) :=
  bind (find_topology G pre) (fun '(topology, ps) =>
  bind (derivation topology ps pre post) (fun '(der, i) =>
  refused_by none_operation (f (Tm topology) der) i (rules G node))).
(** constrained_cfg.py:498-507, the first lines of crossover *)
Definition ccrossover {A} (constraint_is_class : bool) (rest : res A) : res A := if constraint_is_class then Err NotImplementedError else rest.
(** [s in l] *)
Definition occurs (s l : str) : bool := match rfind s l with Some _ => true | None => false end.
(** constrained_cfg.py:576 *)
Definition zero : str := ["z"; "e"; "r"; "o"]%char.
(** constrained_cfg.py:574-594: the donated subtree is turned away; [na]: what is not allowed at its new place *)
Definition turned_away (na : list production) (sub : str) : bool :=
  existsb (fun p => match snd p with Tm w :: _ => str_eqb w zero | _ => false end) na && occurs zero sub &&
  Nat.eqb (count_occ ascii_dec sub chr_open) 1 && Nat.eqb (count_occ ascii_dec sub chr_close) 1.
