(** Parse trees of a grammar, the texts that stand for them, and places in them. *)
From Verif Require Import Py Cfg_model.
Open Scope list_scope.
Local Notation length := List.length.

Inductive tree : Type := Leaf (w : str) | Node (n : str) (cs : list tree).
Definition root (t : tree) : symbol := match t with Leaf w => Tm w | Node n _ => Nt n end.
Definition all {A} (P : A -> Prop) (l : list A) : Prop := fold_right and True (map P l).
(** every node is one of the productions *)
Fixpoint parse (G : grammar) (t : tree) : Prop :=
  match t with Leaf _ => True | Node n cs => In (n, map root cs) G /\ all (parse G) cs end.
Definition derived (G : grammar) (n : str) (t : tree) : Prop := root t = Nt n /\ parse G t.
(** [(S (T 1) (ADD +) (T 2))] *)
Fixpoint text (t : tree) : str :=
  match t with
  | Leaf w => w
  | Node n cs => "("%char :: n ++ List.concat (map (fun c => " "%char :: text c) cs) ++ [")"%char]
  end.
(** subtrees of one node that stand for the same nonterminal are the same *)
Fixpoint twins (t : tree) : Prop :=
  match t with Leaf _ => True | Node n cs => (forall a b, In a cs -> In b cs -> root a = root b -> a = b) /\ all twins cs end.

(** ** Places *)
(** the nodes from the root down to the place: symbol, subtrees before and after it *)
Definition place := list (str * list tree * list tree).
Fixpoint plug (c : place) (t : tree) : tree :=
  match c with [] => t | (n, l, r) :: c' => Node n (l ++ plug c' t :: r) end.
(** the text up to the place, and from there on *)
Fixpoint before (c : place) : str :=
  match c with [] => [] | (n, l, _) :: c' => "("%char :: n ++ List.concat (map (fun t => " "%char :: text t) l) ++ " "%char :: before c' end.
Fixpoint after (c : place) : str :=
  match c with [] => [] | (_, _, r) :: c' => after c' ++ List.concat (map (fun t => " "%char :: text t) r) ++ [")"%char] end.
Definition blanks (l : str) : nat := count_occ ascii_dec l " "%char.
(** [i] is the position (of the word) at which the subtree [Node n cs] of [t] begins *)
Definition begins (t : tree) (i : nat) (c : place) (n : str) (cs : list tree) : Prop :=
  t = plug c (Node n cs) /\ i = blanks (before c) /\ cs <> [].

(** there are several productions for [n] *)
Definition choice (G : grammar) (n : str) : Prop := 1 < count_occ (list_eq_dec ascii_dec) (map fst G) n.
(** there is a subtree at [i] whose symbol has several productions *)
Definition open_at (G : grammar) (t : tree) (i : nat) (n : str) : Prop := choice G n /\ exists c cs, begins t i c n cs.

(** ** Symbols *)
Fixpoint depth (l : str) : Z :=
  match l with [] => 0 | a :: l' => (if Ascii.eqb a "(" then 1 else if Ascii.eqb a ")" then -1 else 0) + depth l' end%Z.
(** every bracket is closed after it was opened *)
Definition balanced (l : str) : Prop := depth l = 0%Z /\ forall p q, l = p ++ q -> (0 <= depth p)%Z.
Definition name_ok (n : str) : Prop := n <> [] /\ ~ In " "%char n /\ ~ In "("%char n /\ ~ In ")"%char n.
(** terminals: no blanks, brackets closed, and not a letter followed by the name of a nonterminal *)
Definition word_ok (G : grammar) (w : str) : Prop :=
  ~ In " "%char w /\ balanced w /\ forall a n, w = a :: n -> ~ In n (map fst G).
Definition grammar_ok (G : grammar) : Prop :=
  forall n rhs, In (n, rhs) G -> name_ok n /\ rhs <> [] /\ Forall (fun s => match s with Tm w => word_ok G w | Nt m => name_ok m end) rhs.

(** ** Probabilities *)
(** the productions used, each after those below it *)
Fixpoint used (t : tree) : list production :=
  match t with Leaf _ => [] | Node n cs => List.concat (map used cs) ++ [(n, map root cs)] end.
(** the weight given to a production *)
Definition weight {T} (G : grammar) (prior : str -> list T) (p : production) (w : T) : Prop :=
  exists i, nth_error (filter (fun q => if list_eq_dec ascii_dec (fst q) (fst p) then true else false) G) i = Some p /\ nth_error (prior (fst p)) i = Some w.
Definition prefix {A} (l m : list A) : Prop := exists r, m = l ++ r.
(** symbols without blanks and brackets; no string is both a terminal and a nonterminal; no right side
    is the beginning of another one of the same symbol *)
Definition solid (s : str) : Prop := s <> [] /\ forall a, In a s -> ~ In a [" "; "("; ")"; "009"; "010"]%char.
Definition clear (G : grammar) : Prop :=
  NoDup G /\
  (forall n rhs, In (n, rhs) G -> solid n /\ Forall (fun s => match s with Tm w => solid w /\ ~ In w (map fst G) | Nt m => In m (map fst G) end) rhs) /\
  (forall n r r', In (n, r) G -> In (n, r') G -> prefix r r' -> r = r').
